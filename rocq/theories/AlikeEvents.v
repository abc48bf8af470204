(** * C42 for types with flattened fields: from trees to documents. *)
From Verif Require Import Str Num Xml XmlText Reader Schema De RunFacts SpecTree TreeFacts TreeProofs
  SpecText TextProofs SpecValue ValueProofs SpecStruct StructProofs StructReads RoundCore RoundNames RoundText SpecComplete SpecAlike AlikeProofs
  InsertProofs AlikeTrees.
Open Scope list_scope.

(** ** From the events *)
Lemma alike_len : forall l l' : list event, Forall2 alike_event l l' -> List.length l = List.length l'.
Proof. intros l l' H. induction H; cbn [List.length]; congruence. Qed.

Lemma flats_alike : forall N ks ks' r r', lens ks <= N -> Forall2 alike_event (flat_map flat ks ++ r) (flat_map flat ks' ++ r') ->
  (r = [] \/ exists n r0, r = EEnd n :: r0) -> (r' = [] \/ exists n r0, r' = EEnd n :: r0) ->
  Forall2 AlikeTree ks ks' /\ Forall2 alike_event r r'.
Proof.
  induction N as [|N IH]; intros ks ks' r r' HN H Hr Hr'.
  - destruct ks as [|k ks]; [|rewrite lens_cons in HN; pose proof (len_pos k); lia].
    destruct ks' as [|k' ks']; [split; [constructor|exact H]|]. exfalso. cbn [flat_map app] in H.
    destruct k' as [n' a' m' ks0|s]; cbn [flat app] in H; destruct Hr as [->|(n & r0 & ->)]; inversion H; subst; contradiction || discriminate.
  - destruct ks as [|k ks].
    + destruct ks' as [|k' ks']; [split; [constructor|exact H]|]. exfalso. cbn [flat_map app] in H.
      destruct k' as [n' a' m' ks0|s]; cbn [flat app] in H; destruct Hr as [->|(n & r0 & ->)]; inversion H; subst; contradiction || discriminate.
    + rewrite lens_cons in HN. pose proof (len_pos k) as Hp. cbn [flat_map] in H. rewrite <- app_assoc in H.
      destruct ks' as [|k' ks'].
      { exfalso. cbn [flat_map app] in H. destruct k as [n a m ks0|s]; cbn [flat app] in H; destruct Hr' as [->|(n1 & r0 & ->)]; inversion H; subst; contradiction || discriminate. }
      cbn [flat_map] in H. rewrite <- app_assoc in H.
      destruct k as [n a m kk|s], k' as [n' a' m' kk'|s']; cbn [flat app] in H; inversion H as [|? ? ? ? He Ht]; subst; try contradiction; try discriminate.
      * rewrite <- !app_assoc in Ht. cbn [app] in Ht. rewrite len_elem in HN.
        destruct (IH kk kk' (EEnd n :: flat_map flat ks ++ r) (EEnd n' :: flat_map flat ks' ++ r')) as [Hk Hrest]; [lia|exact Ht|right; eauto|right; eauto|].
        inversion Hrest as [|? ? ? ? Hend Htl]; subst.
        destruct (IH ks ks' r r') as [Hk2 Hr2]; [lia|exact Htl|assumption|assumption|].
        split; [|exact Hr2]. constructor; [|exact Hk2]. destruct He as [He1 He2]. constructor; assumption.
      * injection He as ->. destruct (IH ks ks' r r') as [Hk2 Hr2]; [lia|exact Ht|assumption|assumption|].
        split; [|exact Hr2]. constructor; [constructor|exact Hk2].
Qed.

Lemma flat_alike : forall t t', Forall2 alike_event (flat t) (flat t') -> AlikeTree t t'.
Proof.
  intros t t' H. destruct (flats_alike (lens [t]) [t] [t'] [] []) as [Ht _]; auto.
  - cbn [flat_map]. rewrite !app_nil_r. exact H.
  - inversion Ht; assumption.
Qed.

(** ** The parser resolves names *)
Definition resolved_event (e : event) : Prop :=
  match e with EStart n _ m => ns_sorted m /\ n_ns n = n_ns (rname [m] n) | _ => True end.

Lemma resolve_rname : forall st q n, resolve_elem st q = Some n -> n_ns n = n_ns (rname [squash st] n).
Proof.
  intros st q n H. rewrite (rname_get [squash st] st) by (intros p; rewrite one_get; apply squash_get).
  unfold resolve_elem in H. destruct (n_prefix (qname q)) as [p|].
  - destruct (lookup_prefix st p) as [u|] eqn:Hl; [|discriminate]. injection H as <-. unfold rname. cbn [n_prefix n_ns]. symmetry. exact Hl.
  - destruct (nss_get st "") as [u|] eqn:Hg; injection H as <-; unfold rname; cbn [n_prefix n_ns]; rewrite Hg; reflexivity.
Qed.

Definition rinv (st : pst) : Prop := Forall resolved_event (p_out st).
Lemma rinv_app : forall a b, Forall resolved_event a -> Forall resolved_event b -> Forall resolved_event (a ++ b).
Proof. intros a b Ha Hb. apply Forall_app. split; assumption. Qed.
Lemma rinv_start : forall st q ats b, rinv st -> rinv (start_tag st q ats b).
Proof.
  intros st q ats b H. unfold start_tag. destruct (bad_tag q ats); [exact H|].
  destruct (resolve_elem _ q) as [n|] eqn:Hn; [|exact H]. destruct (resolve_attrs _ ats); [|exact H].
  assert (He : forall l0, resolved_event (EStart n l0 (squash (decls_of ats :: p_nss st)))).
  { intros l0. split; [apply squash_sorted|]. eapply resolve_rname. exact Hn. }
  destruct b; unfold rinv; cbn [p_out]; (apply rinv_app; [exact H|]); (apply Forall_cons; [apply He|]); repeat constructor.
Qed.
Lemma rinv_step : forall st c, rinv st -> rinv (pstep st c).
Proof.
  intros st c H. unfold pstep.
  assert (Hf : forall m, rinv (flush st m)).
  { intros m. unfold flush. destruct (p_nonws st); [|exact H]. destruct (p_stack st); [exact H|].
    apply rinv_app; [exact H|]. repeat constructor. }
  assert (Hr : forall m, rinv (end_raw st m)) by (intros m; unfold end_raw; destruct (unesc (p_raw st)); exact H).
  assert (He : forall q, rinv (end_tag st q)).
  { intros q. unfold end_tag. destruct (p_stack st); [exact H|]. destruct (p_names st); [exact H|]. destruct (p_nss st); [exact H|].
    destruct (String.eqb _ q); [|exact H]. apply rinv_app; [exact H|]. repeat constructor. }
  destruct (illegal_char c); [destruct (p_mode st); exact H|].
  destruct (p_mode st) as [ | |acc|nm ats|nm ats acc|nm ats an|nm ats an|nm ats an q acc|nm ats|nm ats|acc|acc|acc|tl|acc|acc| |msg];
    repeat match goal with
    | |- rinv (if ?b then _ else _) => destruct b
    | |- rinv (match ?b with Some _ => _ | None => _ end) => destruct b
    end; try apply Hf; try apply Hr; try apply He; try (apply rinv_start; exact H); try exact H.
  all: try (destruct (p_stack st); exact H).
  all: apply rinv_app; [exact H|]; repeat constructor.
Qed.

Theorem parse_resolved : forall s, Forall resolved_event (s_evs (parse_text s)).
Proof.
  intros s. unfold parse_text.
  assert (H : rinv (prun p0 s)).
  { assert (H0 : rinv p0) by (repeat constructor). revert H0. generalize p0 as st.
    induction s as [|c s IH]; intros st H; [exact H|]. cbn [prun]. apply IH, rinv_step, H. }
  revert H. generalize (prun p0 s) as st. intros st H. unfold pfinish, end_raw. unfold rinv in H.
  destruct (p_mode st); cbn [s_evs]; try exact H.
  destruct (unesc (p_raw st)) as [u|]; cbn [s_evs]; [|exact H].
  destruct (p_stack st); [|exact H].
  match goal with |- context [if ?b then _ else _] => destruct b end; [exact H|]. destruct (p_seen st); exact H.
Qed.

Lemma flat_resolved : forall t, Forall resolved_event (flat t) -> Resolved t.
Proof.
  induction t as [s|n a m ks IH] using node_ind'; intros H; [constructor|]. cbn [flat] in H. inversion H as [|? ? H12 H3]; subst. destruct H12 as [H1 H2].
  constructor; [exact H1|exact H2|]. intros k Hk. apply (IH k Hk). apply Forall_app in H3. destruct H3 as [H3 _].
  rewrite Forall_forall in *. intros e He. apply H3. apply in_flat_map. eauto.
Qed.

Lemma markup_resolved : forall s t, markup (parse_text s) = flat t -> Resolved t.
Proof.
  intros s t H. apply flat_resolved. rewrite <- H. unfold markup. rewrite Forall_forall. intros e He. apply filter_In in He.
  pose proof (parse_resolved s) as Hp. rewrite Forall_forall in Hp. apply Hp, He.
Qed.

Theorem alike_flattened : forall x E k id s s' t t',
  alike_source (parse_text s) (parse_text s') ->
  markup (parse_text s) = flat t -> markup (parse_text s') = flat t' ->
  Steady [] t -> Steady [] t' -> Conforms x E k id t -> Conforms x E k id t' ->
  exists N, forall fuel, N <= fuel -> from_str x E fuel id s = from_str x E fuel id s'.
Proof.
  intros x E k id s s' t t' [Hal _] Ht Ht' Hs Hs' Hc Hc'. rewrite Ht, Ht' in Hal. apply flat_alike in Hal.
  pose proof (decode_alike x E k t t' [] [] true id Hal Hs Hs' (markup_resolved _ _ Ht) (markup_resolved _ _ Ht')) as Hd.
  destruct (proj2 (read_decode x E k id 0 t _ Hc) eq_refl) as [N1 H1].
  destruct (proj2 (read_decode x E k id 0 t' _ Hc') eq_refl) as [N2 H2].
  exists (max N1 N2). intros fuel Hf. unfold from_str, from_events.
  destruct (parse_text s) as [evs f] eqn:Hp, (parse_text s') as [evs' f'] eqn:Hp'. unfold d_init.
  rewrite (H1 fuel ltac:(lia) evs [] f) by (rewrite app_nil_r; exact Ht).
  rewrite (H2 fuel ltac:(lia) evs' [] f') by (rewrite app_nil_r; exact Ht'). exact Hd.
Qed.

Lemma alike_same : forall s s', same_document s s' -> Forall distinct_locals (markup s) -> alike_source s s'.
Proof.
  intros s s' [Hm Hf] Hd. split; [|exact Hf].
  induction Hm as [|e e' l l' H Hm IH]; [constructor|]. inversion Hd; subst. constructor; [apply same_alike; assumption|auto].
Qed.
