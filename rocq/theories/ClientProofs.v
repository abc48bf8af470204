(** * Clients that call [inner_next]: proofs (C01-C06). *)
From Verif Require Import Str Xml XmlText Reader Client RunFacts SpecReader SpecClient ReaderProofs.
Open Scope list_scope.

Lemma crun_of_prog : forall A (p : prog A) st, crun (of_prog p) st = run p st.
Proof.
  induction p as [a|m|m| |k IH|k IH|k IH]; intros st; cbn [of_prog crun run]; try reflexivity.
  - destruct (peek st) as [r st']. apply IH.
  - destruct (next_event st) as [[r|] st']; [apply IH|reflexivity].
  - apply IH.
Qed.

Lemma crun_bind : forall A B (p : client A) (f : A -> client B) st,
  crun (kbind p f) st = match crun p st with
    | (OOk a, st') => crun (f a) st'
    | (OErr m, st') => (OErr m, st')
    | (OPanic m, st') => (OPanic m, st')
    | (OFuel, st') => (OFuel, st')
    end.
Proof.
  intros A B p f. induction p as [a|m|m| |k IH|k IH|k IH|k IH]; intros st; cbn [kbind crun]; try reflexivity.
  - destruct (peek st) as [r st']. apply IH.
  - destruct (next_event st) as [[r|] st']; [apply IH|reflexivity].
  - destruct (inner_event st) as [r st']. apply IH.
  - apply IH.
Qed.

(** ** C01 *)
Lemma inner_again : forall l f r l', inner_next_evs l f = (Er r, l') -> inner_next_evs l' f = (Er r, l').
Proof.
  induction l as [|e l IH]; intros f r l' H; cbn [inner_next_evs] in H.
  - destruct f; inversion H; subst. reflexivity.
  - destruct (invisible e); [exact (IH _ _ _ H)|discriminate H].
Qed.
Lemma peek_twice : forall st, peek (snd (peek st)) = peek st.
Proof.
  intros [d [l f] [e|]]; [reflexivity|]. unfold peek, inner_next; cbn. destruct (inner_next_evs l f) as [[e|m] l'] eqn:H; cbn; [reflexivity|].
  rewrite (inner_again _ _ _ _ H). reflexivity.
Qed.
Lemma next_peek : forall st, next_event (snd (peek st)) = next_event st.
Proof.
  intros [d [l f] [e|]]; [reflexivity|]. unfold peek, next_event, inner_next; cbn. destruct (inner_next_evs l f) as [[e|m] l'] eqn:H; cbn; [reflexivity|].
  rewrite (inner_again _ _ _ _ H). reflexivity.
Qed.

Definition one_ahead (b : bool) (st st' : dstate) : Prop := st' = st \/ b = true /\ st' = snd (peek st).
Lemma safe_run : forall A b (p q : client A), kpeeks_safe b p q -> forall st st', one_ahead b st st' ->
  fst (crun q st') = fst (crun p st) /\
  (snd (crun q st') = snd (crun p st) \/ snd (crun q st') = snd (peek (snd (crun p st)))).
Proof.
  intros A b p q H. induction H as [b p q H IH|b a|b m|b m|b|b k k' H IH|b k k' H IH|k k' H IH|b k k' H IH]; intros st st' Hst.
  2-5: cbn [crun fst snd]; split; [reflexivity|]; destruct Hst as [->|[_ ->]]; [left|right]; reflexivity.
  - cbn [crun]. destruct (peek st') as [r st2] eqn:Hp. apply IH. right. split; [reflexivity|].
    destruct Hst as [->|[_ ->]]; [rewrite Hp; reflexivity|]. rewrite peek_twice in Hp. rewrite Hp. reflexivity.
  - cbn [crun]. assert (Hp : peek st' = peek st) by (destruct Hst as [->|[_ ->]]; [reflexivity|apply peek_twice]). rewrite Hp.
    destruct (peek st) as [r st2]. apply IH. left. reflexivity.
  - cbn [crun]. assert (Hp : next_event st' = next_event st) by (destruct Hst as [->|[_ ->]]; [reflexivity|apply next_peek]). rewrite Hp.
    destruct (next_event st) as [[r|] st2]; [apply IH; left; reflexivity|]. split; [reflexivity|left; reflexivity].
  - destruct Hst as [->|[Hb _]]; [|discriminate Hb]. cbn [crun]. destruct (inner_event st) as [r st2]. apply IH. left. reflexivity.
  - cbn [crun]. assert (Hd : d_depth st' = d_depth st) by (destruct Hst as [->|[_ ->]]; [reflexivity|apply peek_depth]). rewrite Hd. apply IH. exact Hst.
Qed.
Lemma C01_client : forall A (p q : client A), kpeeks_safe false p q -> forall st,
  fst (crun q st) = fst (crun p st) /\
  (snd (crun q st) = snd (crun p st) \/ snd (crun q st) = snd (peek (snd (crun p st)))).
Proof. intros A p q H st. apply (safe_run A false p q H). left. reflexivity. Qed.
Lemma of_prog_safe : forall A (p q : prog A), peeks_added p q -> forall b, kpeeks_safe b (of_prog p) (of_prog q).
Proof. intros A p q H. induction H; intros b; cbn [of_prog]; constructor; auto. Qed.

(** ** C02 *)
Lemma inner_depth : forall st, d_depth (snd (inner_event st)) = d_depth st.
Proof. intros st. unfold inner_event. destruct (inner_next _) as [r s]. reflexivity. Qed.
Lemma kexec_depth : forall h st l st', kexec h st = Some (l, st') -> d_depth st' + ends l = d_depth st + starts l.
Proof.
  induction h as [|[| |] h IH]; intros st l st' H; cbn [kexec] in H.
  - inversion H; subst; cbn; lia.
  - apply IH in H. rewrite peek_depth in H. exact H.
  - destruct (next_event st) as [[[e|m]|] st1] eqn:Hn; [| |discriminate H].
    + destruct (kexec h st1) as [[l2 st2]|] eqn:He; [|discriminate H]. inversion H; subst. apply IH in He.
      pose proof (next_depth _ _ _ Hn) as Hd; cbn beta iota in Hd. rewrite ends_cons, starts_cons. lia.
    + apply IH in H. pose proof (next_depth _ _ _ Hn) as Hd; cbn beta iota in Hd. lia.
  - apply IH in H. rewrite inner_depth in H. exact H.
Qed.
Lemma C02_client : forall h s l st, kexec h (d_init s) = Some (l, st) -> d_depth st + ends l = starts l.
Proof. intros h s l st H. apply kexec_depth in H. cbn in H. exact H. Qed.

(** ** C03 *)
Definition same_visible (a b : dstate) : Prop :=
  d_depth a = d_depth b /\ d_peeked a = d_peeked b /\ s_fin (d_src a) = s_fin (d_src b) /\ strip (s_evs (d_src a)) = strip (s_evs (d_src b)).
Lemma inner_strip : forall l f, fst (inner_next_evs (strip l) f) = fst (inner_next_evs l f) /\ snd (inner_next_evs (strip l) f) = strip (snd (inner_next_evs l f)).
Proof.
  induction l as [|e l IH]; intros f; [split; reflexivity|]. cbn [strip filter inner_next_evs]. fold (strip l).
  destruct e; cbn [invisible inner_next_evs fst snd]; try (split; reflexivity); apply IH.
Qed.
Lemma inner_same : forall s t, s_fin s = s_fin t -> strip (s_evs s) = strip (s_evs t) ->
  fst (inner_next s) = fst (inner_next t) /\ s_fin (snd (inner_next s)) = s_fin (snd (inner_next t)) /\
  strip (s_evs (snd (inner_next s))) = strip (s_evs (snd (inner_next t))).
Proof.
  intros [l f] [l' f'] Hf Hl. cbn [s_fin] in Hf. cbn [s_evs] in Hl. subst f'. unfold inner_next. cbn [s_evs s_fin].
  destruct (inner_strip l f) as [H1 H2], (inner_strip l' f) as [H3 H4]. rewrite Hl in H1, H2.
  destruct (inner_next_evs l f) as [r a], (inner_next_evs l' f) as [r' a']. cbn [fst snd s_evs s_fin] in *. split; [congruence|]. split; [reflexivity|congruence].
Qed.
Lemma visible_run : forall A (p : client A) a b, same_visible a b ->
  fst (crun p a) = fst (crun p b) /\ same_visible (snd (crun p a)) (snd (crun p b)).
Proof.
  induction p as [v|m|m| |k IH|k IH|k IH|k IH]; intros [d1 s1 p1] [d2 s2 p2] H; pose proof H as (H1 & H2 & H3 & H4); cbn [d_depth d_peeked d_src] in H1, H2, H3, H4; subst d2 p2; cbn [crun].
  1-4: split; [reflexivity|exact H].
  - unfold peek. cbn [d_peeked d_depth d_src]. destruct p1 as [e|]; [apply IH; exact H|]. destruct (inner_same s1 s2 H3 H4) as (K1 & K2 & K3).
    destruct (inner_next s1) as [[e|m] t1], (inner_next s2) as [[e'|m'] t2]; cbn in K1; try discriminate K1; injection K1 as <-; apply IH; repeat split; assumption.
  - unfold next_event. cbn [d_peeked d_depth d_src]. destruct p1 as [e|].
    + destruct (bump d1 e) as [d'|]; [apply IH; repeat split; assumption|]. split; [reflexivity|repeat split; assumption].
    + destruct (inner_same s1 s2 H3 H4) as (K1 & K2 & K3).
      destruct (inner_next s1) as [[e|m] t1], (inner_next s2) as [[e'|m'] t2]; cbn in K1; try discriminate K1; injection K1 as <-.
      * destruct (bump d1 e) as [d'|]; [apply IH; repeat split; assumption|]. split; [reflexivity|repeat split; assumption].
      * apply IH; repeat split; assumption.
  - unfold inner_event. cbn [d_peeked d_depth d_src]. destruct (inner_same s1 s2 H3 H4) as (K1 & K2 & K3).
    destruct (inner_next s1) as [r t1], (inner_next s2) as [r' t2]; cbn in K1; subst r'. apply IH; repeat split; assumption.
  - cbn [d_depth]. apply IH. exact H.
Qed.
Lemma strip_strip : forall l, strip (strip l) = strip l.
Proof. intros l. rewrite !strip_vis. apply vis_vis. Qed.
Lemma C03_client : forall A (p : client A) d pk evs f,
  let st := DState d (Stream evs f) pk in
  let st' := DState d (Stream (strip evs) f) pk in
    fst (crun p st) = fst (crun p st') /\
    (forall B (later : client B), fst (crun later (snd (crun p st))) = fst (crun later (snd (crun p st')))).
Proof.
  intros A p d pk evs f st st'.
  assert (H : same_visible st st') by (repeat split; cbn; symmetry; apply strip_strip). destruct (visible_run A p st st' H) as [H1 H2].
  split; [exact H1|]. intros B later. apply (visible_run B later _ _ H2).
Qed.

(** ** C04 *)
Lemma C04_inner : forall S (g : S -> event -> S) s d inner n rest f, well_nested inner -> exists fuel0, forall fuel, fuel0 <= fuel ->
  run (skip_element fuel (fun s e => Ret (g s e)) s) (DState d (Stream (inner ++ EEnd n :: rest) f) None)
  = match d with
    | O => (OPanic "attempt to subtract with overflow", DState 0 (Stream rest f) None)
    | Datatypes.S d' => (OOk (fold_left g (strip inner ++ [EEnd n]) s), DState d' (Stream rest f) None)
    end.
Proof.
  intros S g s [|d] inner n rest f H; [|apply C04_ok; exact H]. exists (List.length (strip inner) + 2). intros fuel Hf.
  unfold skip_element. cbn [run d_depth].
  replace fuel with (List.length (strip inner) + Datatypes.S (Datatypes.S (fuel - List.length (strip inner) - 2))) by lia.
  change (fun (s0 : S) (e : event) => Ret (g s0 e)) with (pure_cb g). rewrite (run_skip_inner _ H) by lia. reflexivity.
Qed.

(** ** C05 *)
Lemma C05_client : forall A (f : client A) st a st',
  crun (kread_inner_value f) st = (OOk a, st') <->
  exists n ats ns st1 st2,
    next_event st = (Some (Ok (EStart n ats ns)), st1) /\ crun f st1 = (OOk a, st2) /\ next_event st2 = (Some (Ok (EEnd n)), st').
Proof.
  intros A f st a st'. unfold kread_inner_value. cbn [crun]. split.
  - intros H. destruct (next_event st) as [[[e|m]|] st1] eqn:Hn; try discriminate H. destruct e as [| | |n ats ns| | | | |]; try discriminate H.
    rewrite crun_bind in H. destruct (crun f st1) as [[b|m|m|] st2] eqn:Hf; try discriminate H. rewrite crun_bind, crun_of_prog in H.
    unfold expect_end_element in H. cbn [bind next_ run] in H. destruct (next_event st2) as [[[e|m]|] st3] eqn:Hn2; try discriminate H.
    cbn [of_res bind run] in H. destruct e; try discriminate H. destruct (name_eqb n0 n) eqn:He; [|discriminate H]. cbn [run crun] in H. inversion H; subst.
    apply name_eqb_eq in He; subst. do 5 eexists; repeat split; eauto.
  - intros (n & ats & ns & st1 & st2 & H1 & H2 & H3). rewrite H1, crun_bind, H2, crun_bind, crun_of_prog.
    unfold expect_end_element. cbn [bind next_ run]. rewrite H3. cbn [of_res bind run].
    replace (name_eqb n n) with true by (symmetry; apply name_eqb_eq; reflexivity). reflexivity.
Qed.

(** ** C06 *)
Lemma left_inner : forall st, left (snd (inner_event st)) <= left st.
Proof.
  intros [d [evs f] pk]; unfold inner_event, inner_next, left; cbn. destruct (inner_next_evs evs f) as [r l] eqn:H. apply inner_next_len in H. cbn. lia.
Qed.
Lemma left_crun : forall A (p : client A) st, left (snd (crun p st)) <= left st.
Proof.
  induction p as [a|m|m| |k IH|k IH|k IH|k IH]; intros st; cbn [crun snd]; try lia.
  - pose proof (left_peek st). destruct (peek st) as [r st']; cbn [snd] in *. specialize (IH r st'). lia.
  - pose proof (left_next st). destruct (next_event st) as [[r|] st']; cbn [snd] in *; [|lia]. specialize (IH r st'). lia.
  - pose proof (left_inner st). destruct (inner_event st) as [r st']; cbn [snd] in *. specialize (IH r st'). lia.
  - apply IH.
Qed.
Lemma inner_cont : forall d pk pre c1 f1, c1 <> [] ->
  List.length c1 <= left (snd (inner_event (mkst d pk (pre ++ c1) f1))) ->
  exists r pre', forall c f, inner_event (mkst d pk (pre ++ c) f) = (r, mkst d pk (pre' ++ c) f).
Proof.
  intros d pk pre c1 f1 Hne Hl. unfold inner_event, inner_next, mkst, left in *; cbn in *.
  destruct (inner_next_app pre c1 f1) as [(e & pre' & H)|H].
  - exists (Ok e), pre'. intros. rewrite H. reflexivity.
  - exfalso. rewrite H in Hl. destruct (inner_next_evs c1 f1) as [r l] eqn:Hi; apply inner_next_len in Hi; destruct Hi as [_ Hi]; specialize (Hi Hne); cbn in Hl; lia.
Qed.
Lemma C06_caux : forall A (p : client A) d pk pre c1 f1, c1 <> [] ->
  List.length c1 <= left (snd (crun p (mkst d pk (pre ++ c1) f1))) ->
  exists o d' pk' pre', forall c f, crun p (mkst d pk (pre ++ c) f) = (o, mkst d' pk' (pre' ++ c) f).
Proof.
  induction p as [a|m|m| |k IH|k IH|k IH|k IH]; intros d pk pre c1 f1 Hne Hl; cbn [crun] in *;
    try (do 4 eexists; reflexivity).
  - pose proof (peek_cont d pk pre c1 f1 Hne) as Hpk.
    destruct (peek (mkst d pk (pre ++ c1) f1)) as [r st'] eqn:Hp. cbn [snd] in Hpk. pose proof (left_crun _ (k r) st') as Hlr.
    destruct Hpk as (r2 & pk2 & pre2 & H2); [lia|]. pose proof (H2 c1 f1) as H3. rewrite Hp in H3. inversion H3; subst.
    destruct (IH r2 d pk2 pre2 c1 f1 Hne Hl) as (o & d' & pk' & pre' & H). exists o, d', pk', pre'. intros. rewrite H2. apply H.
  - pose proof (next_cont d pk pre c1 f1 Hne) as Hpk.
    destruct (next_event (mkst d pk (pre ++ c1) f1)) as [[r|] st'] eqn:Hp; cbn [snd] in Hpk.
    + pose proof (left_crun _ (k r) st') as Hlr.
      destruct Hpk as (r2 & d2 & pre2 & H2); [lia|]. pose proof (H2 c1 f1) as H3. rewrite Hp in H3. inversion H3; subst.
      destruct (IH r d2 None pre2 c1 f1 Hne Hl) as (o & d' & pk' & pre' & H). exists o, d', pk', pre'. intros. rewrite H2. apply H.
    + destruct Hpk as (r2 & d2 & pre2 & H2); [exact Hl|]. pose proof (H2 c1 f1) as H3. rewrite Hp in H3. inversion H3; subst.
      do 4 eexists. intros. rewrite H2. reflexivity.
  - pose proof (inner_cont d pk pre c1 f1 Hne) as Hpk.
    destruct (inner_event (mkst d pk (pre ++ c1) f1)) as [r st'] eqn:Hp. cbn [snd] in Hpk. pose proof (left_crun _ (k r) st') as Hlr.
    destruct Hpk as (r2 & pre2 & H2); [lia|]. pose proof (H2 c1 f1) as H3. rewrite Hp in H3. inversion H3; subst.
    destruct (IH r2 d pk pre2 c1 f1 Hne Hl) as (o & d' & pk' & pre' & H). exists o, d', pk', pre'. intros. rewrite H2. apply H.
  - exact (IH d d pk pre c1 f1 Hne Hl).
Qed.
Lemma C06_client : forall A (p : client A) pre c1 f1 c2 f2, c1 <> [] ->
  List.length c1 <= List.length (s_evs (d_src (snd (crun p (d_init (Stream (pre ++ c1) f1)))))) ->
  fst (crun p (d_init (Stream (pre ++ c2) f2))) = fst (crun p (d_init (Stream (pre ++ c1) f1))).
Proof.
  intros A p pre c1 f1 c2 f2 Hne Hl. destruct (C06_caux A p 0 None pre c1 f1 Hne Hl) as (o & d' & pk' & pre' & H).
  unfold d_init, mkst in *. rewrite !H. reflexivity.
Qed.
