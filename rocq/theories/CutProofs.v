(** * Input that is broken off (C52): proofs. *)
From Verif Require Import Str Num Xml XmlText Reader Schema De SpecReader SpecTree SpecStruct SpecSafe SpecTerm SpecComplete SpecCut
  RunFacts ReaderProofs TreeFacts TermProofs CompleteProofs.
From Coq Require Import Lia.
Open Scope list_scope.

(** ** Parsing a longer text delivers more events *)
Definition grows (st st' : pst) : Prop := exists l, p_out st' = p_out st ++ l.
Lemma grows_refl : forall st st', p_out st' = p_out st -> grows st st'.
Proof. intros st st' H. exists []. rewrite H, app_nil_r. reflexivity. Qed.
Lemma grows_flush : forall st m, grows st (flush st m).
Proof.
  intros st m. unfold flush. destruct (p_nonws st); [|apply grows_refl; reflexivity].
  destruct (p_stack st); [apply grows_refl; reflexivity|]. eexists. reflexivity.
Qed.
Lemma grows_raw : forall st m, grows st (end_raw st m).
Proof. intros st m. unfold end_raw. destruct (unesc (p_raw st)); apply grows_refl; reflexivity. Qed.
Lemma grows_start : forall st q ats b, grows st (start_tag st q ats b).
Proof.
  intros st q ats b. unfold start_tag. destruct (bad_tag q ats); [apply grows_refl; reflexivity|].
  destruct (resolve_elem _ q); [|apply grows_refl; reflexivity].
  destruct (resolve_attrs _ ats); [|apply grows_refl; reflexivity].
  destruct b; eexists; reflexivity.
Qed.
Lemma grows_end : forall st q, grows st (end_tag st q).
Proof.
  intros st q. unfold end_tag. destruct (p_stack st); [apply grows_refl; reflexivity|].
  destruct (p_names st); [apply grows_refl; reflexivity|]. destruct (p_nss st); [apply grows_refl; reflexivity|].
  destruct (String.eqb _ q); [eexists; reflexivity|apply grows_refl; reflexivity].
Qed.
Lemma grows_step : forall st c, grows st (pstep st c).
Proof.
  intros st c. unfold pstep.
  destruct (illegal_char c); [destruct (p_mode st); apply grows_refl; reflexivity|].
  destruct (p_mode st) as [ | |acc|nm ats|nm ats acc|nm ats an|nm ats an|nm ats an q acc|nm ats|nm ats|acc|acc|acc|tl|acc|acc| |msg];
    repeat match goal with
    | |- grows _ (if ?b then _ else _) => destruct b
    | |- grows _ (match ?b with Some _ => _ | None => _ end) => destruct b
    end;
    auto using grows_raw, grows_flush, grows_start, grows_end.
  all: try (apply grows_refl; reflexivity).
  all: try (destruct (p_stack st); apply grows_refl; reflexivity).
  all: eexists; reflexivity.
Qed.
Lemma grows_run : forall s st, grows st (prun st s).
Proof.
  induction s as [|c s IH]; intros st; [apply grows_refl; reflexivity|]. cbn [prun].
  destruct (grows_step st c) as [l1 H1]. destruct (IH (pstep st c)) as [l2 H2].
  exists (l1 ++ l2). rewrite H2, H1, app_assoc. reflexivity.
Qed.
Lemma prun_app : forall s r st, prun st (s +++ r) = prun (prun st s) r.
Proof. induction s as [|c s IH]; intros r st; [reflexivity|]. cbn [String.append prun]. apply IH. Qed.
Lemma finish_events : forall st, s_evs (pfinish st) = p_out st.
Proof.
  intros st. unfold pfinish. destruct (p_mode st); try reflexivity.
  unfold end_raw. destruct (unesc (p_raw st)); [|reflexivity]. destruct (p_stack st); [|reflexivity].
  destruct (_ || _)%bool; [reflexivity|]. destruct (p_seen st); reflexivity.
Qed.
Lemma parse_longer : forall s r, exists l, s_evs (parse_text (s +++ r)) = p_out (prun p0 s) ++ l.
Proof. intros s r. unfold parse_text. rewrite finish_events, prun_app. apply grows_run. Qed.

(** ** Programs that do not come to the end of a source *)
Lemma vrun_empty : forall A (p : prog A) v, v_rest v = [] -> v_rest (snd (vrun p v)) = [].
Proof.
  induction p as [a|m|m| |k IH|k IH|k IH]; intros v H; cbn [vrun snd]; auto.
  unfold vnext. rewrite H. apply IH. exact H.
Qed.

(** A program comes to the end of its source, or does not notice what follows. *)
Lemma cut_run : forall A (p : prog A) d l f l' f',
  v_rest (snd (vrun p (VState d l f))) = [] \/
  fst (vrun p (VState d l f)) = fst (vrun p (VState d (l ++ l') f')).
Proof.
  induction p as [a|m|m| |k IH|k IH|k IH]; intros d l f l' f'; cbn [vrun fst snd]; auto.
  - destruct l as [|e l]; [left; apply vrun_empty; reflexivity|]. cbn [app]. apply (IH (Ok e) d (e :: l) f l' f').
  - destruct l as [|e l]; [left; cbn; apply vrun_empty; reflexivity|].
    cbn [app vnext v_rest v_depth v_fin]. destruct (bump d e) as [d'|]; [apply IH|auto].
Qed.

(** Not looking at the source at all. *)
Definition blind {A} (p : prog A) : Prop := forall v, snd (vrun p v) = v.
Lemma blind_bind : forall A B (p : prog A) (f : A -> prog B), blind p -> (forall a, blind (f a)) -> blind (bind p f).
Proof.
  intros A B p f Hp Hf v. rewrite vrun_bind. specialize (Hp v). destruct (vrun p v) as [[a|m|m|] v'];
    cbn [fst snd] in *; subst v'; auto. apply Hf.
Qed.
Lemma blind_in : forall rec id s, blind (from_str_in rec id s).
Proof. intros rec id s v. unfold from_str_in. destruct (fst _); reflexivity. Qed.
Lemma blind_res : forall A (r : res A), blind (of_res r).
Proof. intros A [a|m] v; reflexivity. Qed.
Lemma blind_attempt : forall A (p : prog A), blind p -> blind (attempt p).
Proof.
  intros A p H v. specialize (H v). rewrite vrun_attempt. destruct (vrun p v) as [[a|m|m|] v']; exact H.
Qed.
Lemma blind_flatten : forall rec fs i t ss, blind (visit_flatten rec fs i t ss).
Proof.
  induction fs as [|f fs IH]; intros i t ss; [intros v; reflexivity|]. cbn [visit_flatten].
  apply blind_bind; [|intros; apply IH]. destruct (_ && _)%bool; [|intros v; reflexivity].
  destruct (f_ty f) as [b|b|b|b]; try (intros v; reflexivity); destruct b as [s|id]; try (intros v; reflexivity).
  - apply blind_bind; [apply blind_in|]. intros a v; reflexivity.
  - apply blind_bind; [apply blind_attempt, blind_in|]. intros a v; reflexivity.
Qed.
Lemma blind_unused : forall rec fs u ss, blind (visit_unused rec fs u ss).
Proof. intros rec fs u ss. destruct u; cbn [visit_unused]; try (intros v; reflexivity). apply blind_flatten. Qed.

(** ** Where the loops stop *)
(** Something is left to be read, or the type is flattened and the document at
    its end. *)
Definition stops (td : typedef) (v : vstate) : Prop :=
  v_rest v <> [] \/ (ya_flatten (t_attrs td) = true /\ v_fin v = FEnd).

Lemma peek_stops : forall td v e, vpeek v = Ok e -> e <> EEndDoc -> stops td v.
Proof.
  intros td v e H He. left. intros Hr. unfold vpeek in H. rewrite Hr in H. destruct (v_fin v); [|discriminate].
  inversion H. congruence.
Qed.
Lemma end_stops : forall td v, vpeek v = Ok EEndDoc -> ya_flatten (t_attrs td) = true -> stops td v.
Proof.
  intros td v H Hf. unfold vpeek in H. destruct (v_rest v) as [|e r] eqn:Hr; [|left; congruence].
  destruct (v_fin v) eqn:Hv; [|discriminate]. right. auto.
Qed.

Section Stops.
  Variables (x : ext) (E : env) (rec : nat -> prog value) (fuel : nat).

  Lemma struct_stops : forall fl td fs ln sd st v st1 v1,
    vrun (struct_loop x E rec fuel fl td fs ln sd st) v = (OOk st1, v1) -> stops td v1.
  Proof.
    induction fl as [|fl IH]; intros td fs ln sd st v st1 v1 H; cbn [struct_loop] in H; [discriminate|].
    rewrite vrun_peek_ in H. destruct (vpeek v) as [e|m] eqn:Hp; [|discriminate].
    destruct e; try discriminate.
    - destruct (ya_flatten (t_attrs td)) eqn:Hf; [|eapply IH; exact H]. inversion H; subst. apply end_stops; assumption.
    - apply bind_ok in H. destruct H as (s2 & v2 & _ & H). apply bind_ok in H. destruct H as (s3 & v3 & _ & H).
      eapply IH. exact H.
    - cbn [vrun] in H. destruct (_ && _)%bool eqn:Hb.
      + apply bind_ok in H. destruct H as (u & v2 & Hw & H).
        destruct (quiet_write (l_unused st) (EEnd n) v) as (o & Ho & _). rewrite Ho in Hw. inversion Hw; subst.
        cbn [vrun] in H. inversion H; subst. eapply peek_stops; [exact Hp|discriminate].
      + apply bind_ok in H. destruct H as (s2 & v2 & _ & H). apply bind_ok in H. destruct H as (s3 & v3 & _ & H).
        eapply IH. exact H.
    - apply bind_ok in H. destruct H as (s2 & v2 & _ & H). apply bind_ok in H. destruct H as (s3 & v3 & _ & H).
      eapply IH. exact H.
  Qed.

  Lemma break_still : forall i b cur v c v1,
    vrun (enum_arm x rec i b cur) v = (OOk (c, true), v1) -> v1 = v.
  Proof.
    intros i b cur v c v1 H. destruct b as [|fl t|fs]; cbn [enum_arm] in H; [inversion H; reflexivity| |inversion H].
    destruct (fbase t).
    - apply bind_ok in H. destruct H as (r & v2 & _ & H). destruct r; [|inversion H].
      apply bind_ok in H. destruct H as (r & v3 & _ & H). inversion H.
    - apply bind_ok in H. destruct H as (r & v2 & _ & H). apply bind_ok in H. destruct H as (r' & v3 & _ & H).
      cbn [vrun] in H. destruct (vnext v3) as [[q|] v4]; inversion H.
  Qed.

  Lemma enum_stops : forall fl td vs ln sd cur v o v1,
    vrun (enum_loop x rec fl td vs ln sd cur) v = (OOk o, v1) -> stops td v1.
  Proof.
    induction fl as [|fl IH]; intros td vs ln sd cur v o v1 H; cbn [enum_loop] in H; [discriminate|].
    rewrite vrun_peek_ in H. destruct (vpeek v) as [e|m] eqn:Hp; [|discriminate].
    destruct e; try discriminate.
    - destruct (ya_flatten (t_attrs td)) eqn:Hf; [|discriminate]. inversion H; subst. apply end_stops; assumption.
    - apply bind_ok in H. destruct H as (nm & v2 & Hn & H). apply bind_ok in H. destruct H as ([c b] & v3 & Hr & H).
      assert (v2 = v) as ->.
      { pose proof (blind_res _ (enum_element_name (ya_tag (t_attrs td)) n attrs) v) as Hb. rewrite Hn in Hb. exact Hb. }
      destruct b.
      + cbn [vrun] in H. inversion H; subst. destruct (find_variant vs 0 nm) as [[i b]|].
        * apply break_still in Hr. subst v1. eapply peek_stops; [exact Hp|discriminate].
        * cbn [vrun] in Hr. destruct (vnext v) as [[q|] v4]; inversion Hr.
      + rewrite vrun_peek_ in H. destruct (vpeek v3) as [e2|m2] eqn:Hp2; [|discriminate].
        destruct e2; try (eapply IH; exact H).
        apply bind_ok in H. destruct H as ([c2 b2] & v5 & Hr2 & H). destruct b2; [|eapply IH; exact H].
        cbn [vrun] in H. inversion H; subst. destruct (find_variant vs 0 s) as [[i b]|]; [|inversion Hr2].
        apply break_still in Hr2. subst v1. eapply peek_stops; [exact Hp2|discriminate].
    - cbn [vrun] in H. destruct (_ && _)%bool eqn:Hb.
      + cbn [vrun] in H. inversion H; subst. eapply peek_stops; [exact Hp|discriminate].
      + cbn [vrun] in H. destruct (vnext v) as [[q|] v4]; [eapply IH; exact H|discriminate].
    - cbn [vrun] in H. destruct (vnext v) as [[q|] v4]; [eapply IH; exact H|discriminate].
  Qed.
End Stops.

(** ** Reading a value from the beginning of a source *)
Lemma de_stops : forall x E fuel id td v a v1, nth_error E id = Some td -> compound td ->
  vrun (de x E fuel id) v = (OOk a, v1) -> stops td v1.
Proof.
  intros x E fuel id td v a v1 Htd Hc H.
  destruct fuel as [|fuel]; [discriminate|]. cbn [de] in H. unfold de_body in H. rewrite Htd in H.
  unfold compound in Hc. destruct (t_body td) as [fs|vs df|k]; [| |contradiction].
  - unfold de_struct in H. rewrite vrun_peek_ in H.
    destruct (vpeek _) as [e|]; [|discriminate]. destruct (match e with EStart _ _ _ => _ | _ => _ end) as [ln sns].
    cbn [vrun] in H. destruct (if Nat.eqb _ 0 then _ else _); [discriminate|].
    apply bind_ok in H. destruct H as (st1 & v2 & HP & HF). apply struct_stops in HP.
    match type of HF with vrun ?p ?w = _ => assert (Hb : blind p) end.
    { apply blind_bind; [apply blind_unused|]. intros ss. apply blind_bind; [apply blind_res|]. intros vs w. reflexivity. }
    specialize (Hb v2). rewrite HF in Hb. cbn [snd] in Hb. subst v1. exact HP.
  - unfold de_enum in H. rewrite vrun_peek_ in H.
    destruct (vpeek _) as [e|]; [|discriminate]. destruct (match e with EStart _ _ _ => _ | _ => _ end) as [ln sns].
    cbn [vrun] in H. destruct (namespace_check _ _ _ _); [discriminate|].
    apply bind_ok in H. destruct H as (o & v2 & HP & HF). apply enum_stops in HP.
    cbn [vrun] in HF. inversion HF; subst. exact HP.
Qed.

Lemma vrun_fin : forall A (p : prog A) v, v_fin (snd (vrun p v)) = v_fin v.
Proof.
  induction p as [a|m|m| |k IH|k IH|k IH]; intros v; cbn [vrun snd]; auto.
  unfold vnext. destruct (v_rest v) as [|e r]; [apply IH|]. destruct (bump (v_depth v) e); [|reflexivity].
  rewrite IH. reflexivity.
Qed.

Lemma view_init : forall s, view (d_init s) = VState 0 (vis (s_evs s)) (s_fin s).
Proof. reflexivity. Qed.

Theorem cut_events : forall x E fuel id td evs f more f' v,
  nth_error E id = Some td -> compound td -> ya_flatten (t_attrs td) = false \/ f <> FEnd ->
  from_events x E fuel id (Stream evs f) = OOk v ->
  from_events x E fuel id (Stream (evs ++ more) f') = OOk v.
Proof.
  intros x E fuel id td evs f more f' v Htd Hc Hf H.
  unfold from_events in *. rewrite (proj1 (run_view _ _ _)) in H. rewrite (proj1 (run_view _ _ _)). rewrite view_init in H. rewrite view_init. cbn [s_evs s_fin] in *.
  unfold vis in *. rewrite filter_app.
  destruct (cut_run _ (de x E fuel id) 0 (filter visible evs) f (filter visible more) f') as [Hx|Hx]; [|congruence].
  exfalso. destruct (vrun (de x E fuel id) (VState 0 (filter visible evs) f)) as [o v1] eqn:Hr.
  cbn [fst snd] in *. subst o. destruct (de_stops _ _ _ _ _ _ _ _ Htd Hc Hr) as [Hs|[Hs1 Hs2]]; [congruence|].
  pose proof (vrun_fin _ (de x E fuel id) (VState 0 (filter visible evs) f)) as Hv. rewrite Hr in Hv. cbn [snd v_fin] in Hv.
  destruct Hf; congruence.
Qed.

Theorem cut_text : forall x E fuel id td s r v,
  nth_error E id = Some td -> compound td -> ya_flatten (t_attrs td) = false \/ unfinished s ->
  from_str x E fuel id s = OOk v -> from_str x E fuel id (s +++ r) = OOk v.
Proof.
  intros x E fuel id td s r v Htd Hc Hf H. unfold from_str in *. destruct (parse_longer s r) as [l Hl].
  pose proof (finish_events (prun p0 s)) as He. fold (parse_text s) in He. unfold unfinished in Hf.
  destruct (parse_text s) as [evs f]. destruct (parse_text (s +++ r)) as [evs' f']. cbn [s_evs s_fin] in *. subst evs evs'.
  eapply cut_events; eassumption.
Qed.

Theorem cut_reader : forall x E fuel id td s msg r v,
  nth_error E id = Some td -> compound td ->
  from_failing x E fuel id s msg = OOk v -> from_str x E fuel id (s +++ r) = OOk v.
Proof.
  intros x E fuel id td s msg r v Htd Hc H. unfold from_str, from_failing, parse_failing in *. destruct (parse_longer s r) as [l Hl].
  destruct (parse_text (s +++ r)) as [evs' f']. cbn [s_evs s_fin] in *. subst evs'.
  eapply cut_events; try eassumption. right. discriminate.
Qed.

(** ** Newtypes *)
Theorem cut_newtype : forall x E fuel id td k s msg r v,
  nth_error E id = Some td -> t_body td = DPrim k ->
  from_failing x E fuel id s msg = OOk v ->
  from_str x E fuel id (s +++ r) = OOk v \/ parse_prim x (t_name td) k "" = Ok v.
Proof.
  intros x E fuel id td k s msg r v Htd Hk H. unfold from_str, from_failing, parse_failing in *.
  destruct (parse_longer s r) as [l Hl].
  destruct (parse_text (s +++ r)) as [evs' f']. cbn [s_evs s_fin] in *. subst evs'.
  unfold from_events in *. rewrite (proj1 (run_view _ _ _)) in H. rewrite (proj1 (run_view _ _ _)). rewrite view_init in H. rewrite view_init. cbn [s_evs s_fin] in *.
  unfold vis in *. rewrite filter_app. set (evs := filter visible (p_out (prun p0 s))) in *. clearbody evs.
  destruct fuel as [|fuel]; [discriminate|]. cbn [de] in *. unfold de_body in *. rewrite Htd, Hk in *.
  unfold de_prim in *. cbn [vrun] in *. unfold vpeek at 1 in H. unfold vpeek at 1. cbn [v_rest v_fin fin_res] in *.
  destruct evs as [|e evs]; [discriminate|]. cbn [app] in *.
  destruct e; try discriminate. unfold next_ in *. cbn [bind vrun vnext v_rest v_depth v_fin bump of_res] in *.
  destruct evs as [|e evs].
  - cbn [vpeek v_rest v_fin fin_res] in H. destruct (parse_prim x (t_name td) k ""); cbn in H; [|discriminate].
    right. inversion H. reflexivity.
  - left. cbn [app]. unfold vpeek in *. cbn [v_rest] in *.
    destruct (parse_prim _ _ _ _); cbn in *; [|discriminate]. inversion H. reflexivity.
Qed.

(** ** What a failing reader has delivered *)
Lemma failing_parsed : forall s msg, parsed_source (parse_failing s msg).
Proof.
  intros s msg.
  assert (H : tinv (prun p0 s)).
  { assert (H0 : tinv p0) by (repeat split; discriminate). revert H0. generalize p0 as st.
    induction s as [|c s IH]; intros st H; [exact H|]. cbn [prun]. apply IH. apply tinv_step. exact H. }
  destruct H as (H1 & _). exists (p_names (prun p0 s)). split; [exact H1|]. cbn [parse_failing s_fin]. discriminate.
Qed.
Theorem struct_failing_closed : forall x E fuel id td fs s msg v, struct_type E id td fs ->
  from_failing x E fuel id s msg = OOk v -> root_closed (parse_failing s msg).
Proof. intros x E fuel id td fs s msg v Ht H. eapply struct_root_closed; [exact Ht|apply failing_parsed|exact H]. Qed.

(** ** A document that the parser accepts has a closed root element *)
Lemma stack_vis : forall l st, stack_after st (vis l) = stack_after st l.
Proof.
  unfold vis. induction l as [|e l IH]; intros st; [reflexivity|].
  destruct e; cbn [filter visible invisible negb stack_after]; auto; destruct st; auto.
  destruct (name_eqb n n0); auto.
Qed.
Lemma finished_closed : forall s, s_fin (parse_text s) = FEnd -> root_closed (parse_text s).
Proof.
  intros s Hf. pose proof (parse_parsed s) as Hs. destruct (parsed_view _ Hs) as [_ Hstart].
  destruct Hs as (st & H1 & H2). specialize (H2 Hf).
  assert (Hst : st = []) by (destruct H2; assumption || apply H2). subst st. clear H2.
  set (S := parse_text s) in *. clearbody S.
  assert (Hm : v_rest (view (d_init S)) = markup S).
  { unfold view, d_init, markup, vis. cbn [d_peeked d_src app v_rest]. apply filter_ext. intros []; reflexivity. }
  assert (Hvis : Forall (fun e => visible e = true) (v_rest (view (d_init S)))).
  { unfold view, d_init. cbn [d_peeked d_src app v_rest]. apply vis_forall. }
  assert (Hk : stack_after [] (v_rest (view (d_init S))) = Some []).
  { unfold view, d_init. cbn [d_peeked d_src app v_rest]. rewrite stack_vis. exact H1. }
  destruct Hstart as [(n & a & m & r & Hr)|[_ [e He]]].
  2:{ unfold view, d_init in He. cbn [v_fin d_src] in He. congruence. }
  rewrite Hr in Hk, Hvis. cbn [stack_after] in Hk. inversion Hvis as [|? ? _ Hv]; subst.
  destruct (close (List.length r) r n [] [] (le_n _) Hk Hv (le_n _)) as (l & r2 & Hr2 & C & _ & _).
  exists n, a, m, l, r2. split; [|exact C]. rewrite <- Hm, Hr, Hr2. reflexivity.
Qed.

Theorem cut_unclosed : forall x E fuel id td s r v,
  nth_error E id = Some td -> compound td -> ~ root_closed (parse_text s) ->
  from_str x E fuel id s = OOk v -> from_str x E fuel id (s +++ r) = OOk v.
Proof.
  intros x E fuel id td s r v Htd Hc Hn H. eapply cut_text; try eassumption. right. intros Hf.
  apply Hn, finished_closed, Hf.
Qed.
