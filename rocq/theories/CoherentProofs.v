(** * What the parser tells about elements (C76): proofs. *)
From Verif Require Import Str Xml XmlText SpecXml SpecCoherent AlikeTrees.
From Coq Require Import Lia.
Open Scope list_scope.

Lemma coherent_app : forall st l st', coherent st l st' -> forall l2 st2, coherent st' l2 st2 -> coherent st (l ++ l2) st2.
Proof.
  intros st l st' H. induction H; intros l2 st2 H2; cbn [app].
  - exact H2.
  - apply coh_open; auto.
  - apply coh_close; auto.
  - apply coh_text; auto.
  - apply coh_other; auto.
Qed.

(** The bindings of the open elements. *)
Fixpoint maps (nss : nsstack) : list nsmap :=
  match nss with [] => [] | _ :: r => squash nss :: maps r end.

Definition cinv (st : pst) : Prop :=
  exists K, coherent [] (p_out st) K /\ map fst K = p_names st /\ map snd K = maps (p_nss st) /\
    List.length (p_stack st) = List.length K.

Lemma cinv_same : forall st st', p_out st' = p_out st -> p_stack st' = p_stack st -> p_names st' = p_names st ->
  p_nss st' = p_nss st -> cinv st -> cinv st'.
Proof. intros st st' H1 H2 H3 H4 H. unfold cinv. rewrite H1, H2, H3, H4. exact H. Qed.
Ltac same := intros; eapply cinv_same; [| | | |eassumption]; reflexivity.
Lemma cinv_mode : forall st m, cinv st -> cinv (set_mode st m).
Proof. same. Qed.
Lemma cinv_fail : forall st m, cinv st -> cinv (pfail st m).
Proof. same. Qed.
Lemma cinv_end_raw : forall st m, cinv st -> cinv (end_raw st m).
Proof. intros st m H. unfold end_raw. destruct (unesc (p_raw st)); revert H; same. Qed.
Lemma cinv_flush : forall st m, cinv st -> cinv (flush st m).
Proof.
  intros st m H. unfold flush. destruct (p_nonws st); [|revert H; same].
  destruct (p_stack st) eqn:Hs; [revert H; apply cinv_fail|].
  destruct H as (K & H1 & H2 & H3 & H4). exists K. cbn [p_out p_names p_nss p_stack]. rewrite Hs in *.
  split; [|auto]. eapply coherent_app; [exact H1|]. destruct K as [|k K]; [discriminate H4|]. apply coh_text; [exact I|constructor].
Qed.
Lemma cinv_pi : forall st a m raw buf nw sn, cinv st ->
  cinv (Pst m (p_out st ++ [EPI a]) (p_stack st) (p_names st) (p_nss st) raw buf nw sn).
Proof.
  intros st a m raw buf nw sn (K & H1 & H2). exists K. split; [|exact H2]. cbn [p_out].
  eapply coherent_app; [exact H1|]. apply coh_other; [exact I|constructor].
Qed.
Lemma cinv_end : forall st q, cinv st -> cinv (end_tag st q).
Proof.
  intros st q H. unfold end_tag. destruct (p_stack st) as [|s ss] eqn:Hs; [apply cinv_fail; exact H|].
  destruct (p_names st) as [|n ns] eqn:Hn; [apply cinv_fail; exact H|].
  destruct (p_nss st) as [|d sc] eqn:Hd; [apply cinv_fail; exact H|].
  destruct (String.eqb s q); [|apply cinv_fail; exact H].
  destruct H as (K & H1 & H2 & H3 & H4). rewrite Hn in H2. rewrite Hd in H3. rewrite Hs in H4.
  destruct K as [|[n0 m0] K]; [discriminate H2|]. cbn [map fst snd maps] in H2, H3. injection H2 as -> H2.
  injection H3 as _ H3. exists K. cbn [p_out p_names p_nss p_stack]. split; [|split; [assumption|split; [assumption|]]].
  - eapply coherent_app; [exact H1|]. apply coh_close. constructor.
  - cbn [List.length] in H4. lia.
Qed.

(** ** Start tags *)
Lemma lookup_binds : forall nss p u, lookup_prefix nss p = Some u -> binds (squash nss) p u.
Proof.
  intros nss p u H. unfold lookup_prefix in H. unfold binds. destruct (String.eqb p "xml"); [inversion H; reflexivity|].
  rewrite squash_get. exact H.
Qed.
Lemma elem_binds : forall nss q n, resolve_elem nss q = Some n -> elem_resolved (squash nss) n.
Proof.
  intros nss q n H. unfold resolve_elem in H. unfold elem_resolved. destruct (n_prefix (qname q)) as [p|].
  - destruct (lookup_prefix nss p) as [u|] eqn:Hl; [|discriminate]. inversion H; subst n. cbn [n_prefix n_ns].
    apply lookup_binds. exact Hl.
  - rewrite squash_get. destruct (nss_get nss "") as [u|]; injection H as <-; cbn [n_prefix n_ns]; [|auto].
    destruct (String.eqb u "") eqn:Eu; [apply String.eqb_eq in Eu; subst u; auto|apply String.eqb_neq in Eu; auto].
Qed.
Lemma attr_binds : forall nss q n, resolve_attr_name nss q = Some n ->
  attr_resolved (squash nss) n /\ n_prefix n = n_prefix (qname q) /\ n_local n = n_local (qname q).
Proof.
  intros nss q n H. unfold resolve_attr_name in H. unfold attr_resolved. destruct (n_prefix (qname q)) as [p|] eqn:Hp.
  - destruct (lookup_prefix nss p) as [u|] eqn:Hl; [|discriminate]. inversion H; subst n. cbn [n_prefix n_ns n_local].
    split; [apply lookup_binds; exact Hl|auto].
  - inversion H; subst n. rewrite Hp. split; [|auto]. unfold qname in *. destruct (split_colon q) as [[]|]; reflexivity.
Qed.

Lemma split_join : forall s p l, split_colon s = Some (p, l) -> s = p +++ ":" +++ l.
Proof.
  induction s as [|c s IH]; intros p l H; cbn [split_colon] in H; [discriminate|].
  destruct (Ascii.eqb_spec c ":") as [->|_]; [inversion H; reflexivity|].
  destruct (split_colon s) as [[p' l']|]; [|discriminate]. inversion H; subst. cbn [String.append].
  rewrite (IH p' l eq_refl). reflexivity.
Qed.
Lemma qname_inj : forall a b, n_prefix (qname a) = n_prefix (qname b) -> n_local (qname a) = n_local (qname b) -> a = b.
Proof.
  intros a b. unfold qname. destruct (split_colon a) as [[p l]|] eqn:Ha; destruct (split_colon b) as [[p' l']|] eqn:Hb;
    cbn [n_prefix n_local]; intros H1 H2; try discriminate H1; [|exact H2].
  apply split_join in Ha, Hb. inversion H1; subst. reflexivity.
Qed.

Lemma attrs_binds : forall nss l al, resolve_attrs nss l = Some al ->
  (forall b, In b al -> attr_resolved (squash nss) (at_name b)) /\
  Forall2 (fun b r => n_prefix (at_name b) = n_prefix (qname (fst r)) /\ n_local (at_name b) = n_local (qname (fst r)))
    al (plain_attrs l).
Proof.
  intros nss. unfold plain_attrs. induction l as [|a l IH]; intros al H; cbn [resolve_attrs] in H.
  - inversion H; subst. split; [intros b []|constructor].
  - cbn [filter]. destruct (ns_decl a); [apply IH; exact H|].
    destruct (resolve_attr_name nss (fst a)) as [n|] eqn:Hn; [|discriminate].
    destruct (resolve_attrs nss l) as [r|]; [|discriminate]. inversion H; subst al.
    destruct (IH r eq_refl) as [I1 I2]. destruct (attr_binds _ _ _ Hn) as [A1 A2]. split.
    + intros b [<-|Hb]; [exact A1|auto].
    + constructor; assumption.
Qed.
Lemma dup_nodup : forall l, dup_names l = false -> NoDup (map fst l).
Proof.
  induction l as [|a l IH]; intros H; cbn [dup_names map] in *; [constructor|].
  apply orb_false_iff in H. destruct H as [H1 H2]. constructor; [|auto].
  intros Hin. apply in_map_iff in Hin. destruct Hin as (b & Hb & Hin).
  assert (existsb (fun b => String.eqb (fst a) (fst b)) l = true).
  { apply existsb_exists. exists b. split; [exact Hin|]. apply String.eqb_eq. congruence. }
  congruence.
Qed.
Lemma nodup_names : forall al (raw : list (string * string)),
  Forall2 (fun b r => n_prefix (at_name b) = n_prefix (qname (fst r)) /\ n_local (at_name b) = n_local (qname (fst r))) al raw ->
  NoDup (map fst raw) -> NoDup (map (fun b => (n_prefix (at_name b), n_local (at_name b))) al).
Proof.
  intros al raw H. induction H as [|b r al raw [H1 H2] H IH]; intros Hn; cbn [map] in *; [constructor|].
  inversion Hn as [|? ? Hni Hnd]; subst. constructor; [|auto].
  intros Hin. apply Hni. apply in_map_iff in Hin. destruct Hin as (b' & Hb & Hin). inversion Hb as [[E1 E2]].
  assert (Hex : exists r', In r' raw /\ n_prefix (at_name b') = n_prefix (qname (fst r')) /\ n_local (at_name b') = n_local (qname (fst r'))).
  { clear - H Hin. induction H as [|b0 r0 al raw H0 H IH]; [destruct Hin|]. destruct Hin as [->|Hin].
    - exists r0. split; [left; reflexivity|exact H0].
    - destruct (IH Hin) as (r' & R1 & R2). exists r'. split; [right; exact R1|exact R2]. }
  destruct Hex as (r' & R1 & R2 & R3). apply in_map_iff. exists r'. split; [|exact R1].
  apply qname_inj; congruence.
Qed.

Lemma cinv_start : forall st q ats b, cinv st -> cinv (start_tag st q ats b).
Proof.
  intros st q ats b H. unfold start_tag. destruct (bad_tag q ats) eqn:Hbad; [apply cinv_fail; exact H|].
  destruct (resolve_elem _ q) as [n|] eqn:Hn; [|apply cinv_fail; exact H].
  destruct (resolve_attrs _ ats) as [al|] eqn:Ha; [|apply cinv_fail; exact H].
  set (nss := decls_of ats :: p_nss st) in *.
  assert (Ht : coherent_tag n al (squash nss)).
  { split; [eapply elem_binds; exact Hn|]. destruct (attrs_binds _ _ _ Ha) as [A1 A2]. split; [exact A1|].
    eapply nodup_names; [exact A2|]. apply dup_nodup. unfold bad_tag in Hbad. apply orb_false_iff in Hbad.
    destruct Hbad as [Hbad _]. apply orb_false_iff in Hbad. apply Hbad. }
  destruct H as (K & H1 & H2 & H3 & H4).
  assert (Hi : inherits K (squash nss)).
  { destruct K as [|[n0 m0] K]; [exact I|]. cbn [inherits]. intros p Hp. cbn [map snd] in H3.
    destruct (p_nss st) as [|d r] eqn:Hd; [discriminate H3|]. cbn [maps] in H3. inversion H3 as [[H5 H6]].
    rewrite H5, squash_get in Hp. rewrite squash_get. unfold nss. rewrite <- Hd in *.
    cbn [nss_get]. destruct (ns_get (decls_of ats) p); [discriminate|exact Hp]. }
  destruct b; cbn [p_out].
  - exists K. cbn [p_out p_names p_nss p_stack]. split; [|auto]. eapply coherent_app; [exact H1|].
    apply coh_open; [exact Ht|exact Hi|]. apply coh_close. constructor.
  - exists ((n, squash nss) :: K). cbn [p_out p_names p_nss p_stack map fst snd maps List.length].
    split; [|split; [congruence|split; [unfold nss in *; cbn [maps]; congruence|congruence]]].
    eapply coherent_app; [exact H1|]. apply coh_open; [exact Ht|exact Hi|constructor].
Qed.

Lemma cinv_step : forall st c, cinv st -> cinv (pstep st c).
Proof.
  intros st c H. unfold pstep.
  destruct (illegal_char c); [destruct (p_mode st); auto using cinv_fail|].
  destruct (p_mode st) as [ | |acc|nm ats|nm ats acc|nm ats an|nm ats an|nm ats an q acc|nm ats|nm ats|acc|acc|acc|tl|acc|acc| |msg];
    repeat match goal with
    | |- cinv (if ?b then _ else _) => destruct b
    | |- cinv (match ?b with Some _ => _ | None => _ end) => destruct b
    end;
    auto using cinv_mode, cinv_fail, cinv_end_raw, cinv_flush, cinv_start, cinv_end, cinv_pi.
  all: try (destruct (p_stack st); revert H; same).
  all: try (revert H; same).
Qed.

Theorem parser_coherent : forall s, exists st, coherent [] (s_evs (parse_text s)) st /\
  (s_fin (parse_text s) = FEnd -> st = []).
Proof.
  intros s. unfold parse_text.
  assert (H : cinv (prun p0 s)).
  { assert (H0 : cinv p0) by (exists []; split; [apply coh_other; [exact I|constructor]|repeat split]). revert H0. generalize p0 as st.
    induction s as [|c s IH]; intros st H; [exact H|]. cbn [prun]. apply IH. apply cinv_step. exact H. }
  revert H. generalize (prun p0 s) as st. intros st (K & H1 & H2 & H3 & H4). exists K.
  assert (He : s_evs (pfinish st) = p_out st).
  { unfold pfinish. destruct (p_mode st); try reflexivity. unfold end_raw. destruct (unesc (p_raw st)); [|reflexivity].
    destruct (p_stack st); [|reflexivity]. destruct (_ || _)%bool; [reflexivity|]. destruct (p_seen st); reflexivity. }
  rewrite He. split; [exact H1|]. unfold pfinish. destruct (p_mode st); try discriminate.
  unfold end_raw. destruct (unesc (p_raw st)); [|discriminate]. destruct (p_stack st) eqn:Hs; [|discriminate].
  intros _. destruct K; [reflexivity|discriminate H4].
Qed.
