(** * The generated deserializers compute [value_of] on conforming trees. *)
From Verif Require Import Str Num Xml XmlText Reader Schema De RunFacts SpecTree TreeFacts TreeProofs
  SpecText TextProofs SpecValue.
Open Scope list_scope.

Definition erase (w : wevent) : wevent := match w with WEnd _ => WEnd None | w => w end.

Lemma emit_erase : forall c l st, emit_from c st (map erase l) = emit_from c st l.
Proof.
  intros c; induction l as [|e l IH]; intros st; [reflexivity|].
  cbn [map]. rewrite !emit_cons.
  assert (emit1 c st (erase e) = emit1 c st e) as -> by (destruct e; reflexivity).
  rewrite IH. reflexivity.
Qed.

Lemma wtree_wflat : forall t, wtree (wn t) = map erase (wflat t).
Proof.
  induction t as [|n a m ks IH] using node_ind'; [reflexivity|].
  unfold wflat. cbn [wn wtree flat].
  change (wevs (EStart n a m :: flat_map flat ks ++ [EEnd n]))
    with (WStart n a m :: wevs (flat_map flat ks ++ [EEnd n])).
  rewrite wevs_app, map_cons, map_app. cbn [erase]. f_equal. f_equal.
  induction ks as [|k ks IHk]; [reflexivity|]. cbn [map flat_map].
  rewrite wevs_app, map_app, <- IHk, (IH k (or_introl eq_refl)); [reflexivity|].
  intros k' Hk'. apply IH. right; assumption.
Qed.

Lemma emit_wflat : forall c t, emit_text c (wflat t) = emit_text c (wtree (wn t)).
Proof.
  intros c t. rewrite wtree_wflat. unfold emit_text.
  destruct (wflat t) as [|e l] eqn:Hw; [reflexivity|]. cbn [map].
  change (erase e :: map erase l) with (map erase (e :: l)). rewrite emit_erase. reflexivity.
Qed.

(** ** Sizes *)
Lemma lens_app : forall a b, lens (a ++ b) = lens a + lens b.
Proof. intros; unfold lens. rewrite flat_map_app, app_length. reflexivity. Qed.
Lemma text_node_len : forall b, lens (text_node b) <= 1.
Proof. intros b; unfold text_node. destruct (str_nonws b); cbn; lia. Qed.

Lemma reread_len : forall t nss, len (reread nss (wn t)) <= len t.
Proof.
  induction t as [s|n a m ks IH] using node_ind'; intros nss; [reflexivity|].
  cbn [wn]. rewrite reread_elem, !len_elem. apply Nat.add_le_mono_r.
  enough (H : forall nss' buf, lens (reread_kids nss' (map wn ks) buf) <= lens ks + lens (text_node buf)).
  { specialize (H (declare nss m :: nss) ""). change (lens (text_node "")) with 0 in H. lia. }
  induction ks as [|k ks IHk]; intros nss' buf; [cbn [map reread_kids]; lia|].
  rewrite lens_cons. cbn [map reread_kids]. destruct k as [kn ka km kk|s].
  - cbn [wn]. change (WElem kn ka km (map wn kk)) with (wn (Elem kn ka km kk)).
    rewrite lens_app, lens_cons.
    pose proof (IH _ (or_introl eq_refl) nss') as H1.
    pose proof (IHk (fun k' Hk' => IH k' (or_intror Hk')) nss' "") as H2.
    change (lens (text_node "")) with 0 in H2. lia.
  - cbn [wn]. pose proof (IHk (fun k' Hk' => IH k' (or_intror Hk')) nss' (buf +++ s)) as H2.
    pose proof (text_node_len (buf +++ s)). change (len (Txt s)) with 1. lia.
Qed.

(** ** The document built for an attribute of user type *)
Lemma wrapped_text : forall td s, identifier (t_name td) -> legal s = true ->
  parse_text ("<" +++ t_name td +++ ">" +++ esc_pcdata s +++ "</" +++ t_name td +++ ">") =
  Stream (EStartDoc :: flat (wrapped td s)) FEnd.
Proof.
  intros td s [Hn Hc] Hl.
  pose proof (text_round_trip (EConf false None) I
    (WElem (Name (t_name td) None None) [] [] [WTxt s]) I) as H.
  assert (emit_text (EConf false None) (wtree (WElem (Name (t_name td) None None) [] [] [WTxt s])) =
    "<" +++ t_name td +++ ">" +++ esc_pcdata s +++ "</" +++ t_name td +++ ">") as Ht.
  { cbn [wtree flat_map app]. unfold emit_text. rewrite !emit_cons.
    cbn -[String.append t_name esc_pcdata]. rewrite !sapp_assoc. cbn [String.append].
    rewrite ?sapp_assoc. reflexivity. }
  rewrite Ht in H. rewrite H; [reflexivity|].
  constructor.
  - split; [repeat split; assumption|]. cbn [name_repr n_prefix n_local]. unfold qname. rewrite Hc. reflexivity.
  - exact I.
  - intros t [].
  - constructor.
  - intros p [].
  - intros k [<-|[]]. constructor. exact Hl.
Qed.

(** ** Running from a document *)
Lemma strip_vis : forall l,
  filter (fun e => match e with EStartDoc | EPI _ | EComment _ => false | _ => true end) l = vis l.
Proof. intros l; unfold vis. apply filter_ext. intros []; reflexivity. Qed.

Lemma vis_flat : forall t, vis (flat t) = flat t.
Proof.
  induction t as [s|n a m ks IH] using node_ind'; [reflexivity|].
  cbn [flat]. unfold vis. cbn [filter visible invisible negb]. f_equal.
  rewrite filter_app. f_equal. induction ks as [|k ks IHk]; [reflexivity|].
  cbn [flat_map]. rewrite filter_app. f_equal; [apply (IH k); left; reflexivity|].
  apply IHk. intros k' Hk'. apply IH. right; assumption.
Qed.

Lemma run_flat : forall A (p : prog A) d evs tail f t,
  vis evs = flat t ++ tail ->
  fst (run p (DState d (Stream evs f) None)) = fst (vrun p (VState d (flat t ++ tail) f)).
Proof.
  intros A p d evs tail f t H. rewrite (proj1 (run_view _ p _)). unfold view. cbn [d_depth d_src d_peeked s_evs s_fin app]. rewrite H. reflexivity.
Qed.

Section Value.
  Variable x : ext.
  Variable E : env.

  Definition attr_value_at (k : nat) (id : nat) (s : string) : outcome value :=
    match k with
    | O => OPanic "not covered"
    | S k' => match nth_error E id, unesc s with
              | Some td, Some u => value_of x E k' true id (wrapped td u)
              | _, _ => OPanic "unknown type"
              end
    end.
  Definition flat_value_at (k : nat) (id : nat) (r : node) : outcome value :=
    match k with
    | O => OPanic "not covered"
    | S k' => value_of x E k' true id (reread [] (wn r))
    end.
  Definition attr_fine_at (k : nat) (id : nat) (s : string) : Prop :=
    match k with
    | O => False
    | S k' => exists td u, nth_error E id = Some td /\ identifier (t_name td) /\
                s = esc_pcdata u /\ legal u = true /\ Conforms x E k' id (wrapped td u)
    end.
  Definition flat_fine_at (k : nat) (id : nat) (r : node) : Prop :=
    match k with
    | O => False
    | S k' => Writable [] (wn r) /\ Conforms x E k' id (reread [] (wn r))
    end.

  Lemma value_of_decode : forall k top id t,
    value_of x E k top id t = decode x E (attr_value_at k) (flat_value_at k) top id t.
  Proof. intros [|k]; reflexivity. Qed.
  Lemma Conforms_Fits : forall k id t,
    Conforms x E k id t = Fits x E (attr_fine_at k) (flat_fine_at k) id t.
  Proof. intros [|k]; reflexivity. Qed.

  Lemma fits_elem : forall af ff id t, Fits x E af ff id t -> exists n a m ks, t = Elem n a m ks.
  Proof. intros af ff id t H; inversion H; subst; eauto. Qed.

  (** The generated deserializer computes [value_of] and stops right before
      the rest of its element. *)
  Theorem value_works : forall k fuel id t, Conforms x E k id t -> len t + 5 + 4 * k < fuel ->
    works x E (attr_value_at k) (flat_value_at k) (De.de x E fuel) id t.
  Proof.
    induction k as [|k IH]; intros fuel id t Hc Hf; rewrite Conforms_Fits in Hc.
    - eapply refines with (K := 0); eauto; try (intros ? ? ? []).
    - assert (Hdoc : forall f id' t' s, Conforms x E k id' t' -> len t' + 5 + 4 * k < f ->
        parse_text s = Stream (EStartDoc :: flat t') FEnd ->
        from_str x E f id' s = value_of x E k true id' t').
      { intros f id' t' s Hc' Hf' Hs. unfold from_str, from_events. rewrite Hs. unfold d_init.
        rewrite (run_flat _ _ 0 (EStartDoc :: flat t') [] FEnd t').
        2:{ change (vis (EStartDoc :: flat t')) with (vis (flat t')). rewrite vis_flat, app_nil_r. reflexivity. }
        pose proof (IH f id' t' Hc' Hf' 0 FEnd []) as Hw. rewrite value_of_decode.
        change (Nat.eqb 0 0) with true in Hw. unfold agrees in Hw.
        destruct (decode _ _ _ _ true id' t'); [rewrite Hw; reflexivity|exact Hw|exact Hw|exact Hw]. }
      eapply refines with (K := 4 * S k); eauto; [|].
      + intros f id' s (td & u & Htd & Hi & Hs & Hp & Hc') Hf'. subst s. exists td. split; [exact Htd|].
        cbn [attr_value_at]. rewrite Htd, unesc_pcdata. apply Hdoc; [exact Hc'| |apply wrapped_text; assumption].
        unfold wrapped. rewrite len_elem. pose proof (text_node_len u). lia.
      + intros f id' r [Hw Hc'] Hf'. cbn [flat_value_at]. rewrite emit_wflat.
        apply Hdoc; [exact Hc'| |].
        * pose proof (reread_len r []). lia.
        * apply text_round_trip; [exact I| |exact Hw].
          rewrite Conforms_Fits in Hc'. apply fits_elem in Hc'. destruct Hc' as (? & ? & ? & ? & Hr).
          destruct r; [exact I|discriminate].
  Qed.

  Theorem value_read : forall k id t d, Conforms x E k id t ->
    Reads x E id d t (value_of x E k (Nat.eqb d 0) id t).
  Proof.
    intros k id t d Hc. exists (len t + 6 + 4 * k). intros fuel Hf evs tail f Hv.
    rewrite strip_vis in Hv. rewrite (run_flat _ _ _ _ _ _ _ Hv).
    pose proof (value_works k fuel id t Hc ltac:(lia) d f tail) as Hw.
    rewrite value_of_decode. unfold agrees in Hw.
    destruct (decode _ _ _ _ (Nat.eqb d 0) id t); [rewrite Hw; reflexivity|exact Hw|exact Hw|exact Hw].
  Qed.
End Value.

Lemma Reads_fun : forall x E id d t o o', Reads x E id d t o -> Reads x E id d t o' -> o = o'.
Proof.
  intros x E id d t o o' [N H] [N' H'].
  assert (Hv : filter (fun e => match e with EStartDoc | EPI _ | EComment _ => false | _ => true end) (flat t) = flat t ++ []).
  { rewrite strip_vis, vis_flat, app_nil_r. reflexivity. }
  rewrite <- (H (N + N') ltac:(lia) (flat t) [] FEnd Hv). apply (H' (N + N') ltac:(lia) (flat t) [] FEnd Hv).
Qed.

(** On a document. *)
Lemma Reads_doc : forall x E id t o, Reads x E id 0 t o ->
  exists N, forall fuel, N <= fuel -> forall tail f,
    from_events x E fuel id (Stream (EStartDoc :: flat t ++ tail) f) = o.
Proof.
  intros x E id t o [N H]. exists N. intros fuel Hf tail f. unfold from_events, d_init.
  apply (H fuel Hf _ (vis tail)). rewrite strip_vis.
  change (vis (EStartDoc :: flat t ++ tail)) with (vis (flat t ++ tail)).
  unfold vis. rewrite filter_app. fold (vis (flat t)). rewrite vis_flat. reflexivity.
Qed.
