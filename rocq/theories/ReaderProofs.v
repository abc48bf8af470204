(** * Proofs about the reader runtime (C01-C06). *)
From Verif Require Import Str Xml XmlText Reader RunFacts SpecReader.
Open Scope list_scope.

(** ** C01 *)
Lemma peeks_added_vrun : forall A (p q : prog A), peeks_added p q ->
  forall v, vrun q v = vrun p v.
Proof.
  intros A p q H; induction H; intros v; simpl; auto.
  destruct (vnext v) as [[r|] v']; auto.
Qed.

Lemma run_later_veq : forall B (r : prog B) st1 st2,
  veq (view st1) (view st2) -> fst (run r st1) = fst (run r st2).
Proof.
  intros B r st1 st2 H.
  rewrite (proj1 (run_view _ r st1)), (proj1 (run_view _ r st2)).
  apply veq_vrun; assumption.
Qed.

Lemma C01_lemma : forall A (p q : prog A), peeks_added p q -> forall st,
  fst (run q st) = fst (run p st) /\
  (forall B (r : prog B), fst (run r (snd (run q st))) = fst (run r (snd (run p st)))).
Proof.
  intros A p q H st.
  destruct (run_view _ p st) as [P1 P2], (run_view _ q st) as [Q1 Q2].
  rewrite (peeks_added_vrun _ _ _ H) in Q1, Q2. split; [congruence|].
  intros B r. apply run_later_veq.
  eapply veq_trans; [exact Q2|apply veq_sym; exact P2].
Qed.

(** ** C03 *)
Lemma strip_vis : forall l, strip l = vis l.
Proof.
  induction l as [|e l IH]; [reflexivity|].
  unfold strip, vis in *; simpl. rewrite IH. destruct e; reflexivity.
Qed.

Lemma vis_vis : forall l, vis (vis l) = vis l.
Proof.
  induction l as [|e l IH]; [reflexivity|]. unfold vis in *; simpl.
  destruct (visible e) eqn:He; simpl; [rewrite He, IH|]; auto.
Qed.

Lemma C03_lemma : forall A (p : prog A) d evs f,
  let st := DState d (Stream evs f) None in
  let st' := DState d (Stream (strip evs) f) None in
  fst (run p st) = fst (run p st') /\
  (forall B (r : prog B), fst (run r (snd (run p st))) = fst (run r (snd (run p st')))).
Proof.
  intros A p d evs f st st'.
  assert (Hv : view st = view st').
  { unfold view, st, st'; simpl. rewrite strip_vis, vis_vis. reflexivity. }
  destruct (run_view _ p st) as [P1 P2], (run_view _ p st') as [Q1 Q2].
  rewrite Hv in P1, P2. split; [congruence|].
  intros B r. apply run_later_veq. eapply veq_trans; [exact P2|apply veq_sym; exact Q2].
Qed.

(** ** C02 *)
Lemma bump_count : forall d e d', bump d e = Some d' ->
  d' + ends [e] = d + starts [e].
Proof. intros d e d' H; destruct e; simpl in *; inversion H; subst; cbn; try lia.
  destruct d; inversion H; subst; cbn; lia. Qed.

Lemma ends_cons : forall e l, ends (e :: l) = ends [e] + ends l.
Proof. intros; unfold ends; simpl. destruct (is_end e); simpl; lia. Qed.
Lemma starts_cons : forall e l, starts (e :: l) = starts [e] + starts l.
Proof. intros; unfold starts; simpl. destruct (is_start e); simpl; lia. Qed.
Lemma ends_app : forall a b, ends (a ++ b) = ends a + ends b.
Proof. intros; unfold ends; rewrite filter_app, app_length; reflexivity. Qed.
Lemma starts_app : forall a b, starts (a ++ b) = starts a + starts b.
Proof. intros; unfold starts; rewrite filter_app, app_length; reflexivity. Qed.

Lemma peek_depth : forall st, d_depth (snd (peek st)) = d_depth st.
Proof.
  intros [d [evs f] pk]; unfold peek; simpl. destruct pk; [reflexivity|].
  unfold inner_next; simpl. destruct (inner_next_evs evs f) as [[e|m] r]; reflexivity.
Qed.

Lemma next_depth : forall st r st', next_event st = (Some r, st') ->
  match r with
  | Ok e => d_depth st' + ends [e] = d_depth st + starts [e]
  | Er _ => d_depth st' = d_depth st
  end.
Proof.
  intros st r st' H. unfold next_event in H.
  destruct (match d_peeked st with Some e => (Ok e, d_src st) | None => inner_next (d_src st) end) as [[e|m] s].
  - destruct (bump (d_depth st) e) eqn:Hb; inversion H; subst; simpl.
    apply bump_count; assumption.
  - inversion H; subst; reflexivity.
Qed.

Lemma exec_depth : forall h st l st', exec h st = Some (l, st') ->
  d_depth st' + ends l = d_depth st + starts l.
Proof.
  induction h as [|[|] h IH]; intros st l st' H; simpl in H.
  - inversion H; subst; cbn; lia.
  - apply IH in H. rewrite peek_depth in H. assumption.
  - destruct (next_event st) as [[[e|m]|] st1] eqn:Hn; [| |discriminate].
    + destruct (exec h st1) as [[l2 st2]|] eqn:He; [|discriminate].
      inversion H; subst. apply IH in He.
      pose proof (next_depth _ _ _ Hn) as Hd; simpl in Hd.
      rewrite ends_cons, starts_cons. lia.
    + apply IH in H. pose proof (next_depth _ _ _ Hn) as Hd; simpl in Hd. lia.
Qed.

Lemma app_split : forall A (a b c d : list A), a ++ b = c ++ d ->
  (exists m, c = a ++ m /\ b = m ++ d) \/ (exists m, a = c ++ m /\ d = m ++ b).
Proof.
  induction a as [|x a IH]; intros b c d H; simpl in H.
  - left; exists c; auto.
  - destruct c as [|y c]; simpl in H.
    + right; exists (x :: a); simpl; auto.
    + inversion H; subst. destruct (IH _ _ _ H2) as [(m & -> & ->)|(m & -> & ->)].
      * left; exists m; auto.
      * right; exists m; auto.
Qed.

Lemma well_nested_balanced : forall l, well_nested l -> ends l = starts l.
Proof.
  intros l H; induction H; simpl.
  - reflexivity.
  - destruct e; cbn; try reflexivity; exfalso; [eapply H|eapply H0]; reflexivity.
  - rewrite ends_app, starts_app; lia.
  - rewrite ends_cons, starts_cons, ends_app, starts_app; cbn; lia.
Qed.

Lemma well_nested_prefix : forall l, well_nested l ->
  forall a b, l = a ++ b -> ends a <= starts a.
Proof.
  intros l H; induction H; intros p q Heq.
  - destruct p; [cbn; lia|discriminate].
  - destruct p as [|x p]; [cbn; lia|]. simpl in Heq. inversion Heq; subst.
    destruct p; [|discriminate]. destruct x; cbn; try lia.
    exfalso; eapply H0; reflexivity.
  - destruct (app_split _ _ _ _ _ Heq) as [(m & -> & ->)|(m & -> & ->)].
    + rewrite ends_app, starts_app. specialize (IHwell_nested2 m q eq_refl).
      apply well_nested_balanced in H. lia.
    + apply (IHwell_nested1 p m eq_refl).
  - destruct p as [|x p]; [cbn; lia|]. simpl in Heq. inversion Heq; subst.
    rewrite ends_cons, starts_cons. cbn.
    destruct (app_split _ _ _ _ _ H2) as [(k & -> & Hq)|(k & -> & ->)].
    + destruct k as [|y k]; simpl in Hq.
      * rewrite app_nil_r. apply well_nested_balanced in H. lia.
      * inversion Hq; subst. destruct k; [|discriminate].
        rewrite ends_app, starts_app. cbn. apply well_nested_balanced in H. lia.
    + specialize (IHwell_nested p k eq_refl). lia.
Qed.

Definition safe (v : vstate) : Prop :=
  forall a b, v_rest v = a ++ b -> ends a <= v_depth v + starts a.

Lemma safe_veq : forall v w, veq v w -> safe v -> safe w.
Proof.
  intros v w H Hs; inversion H; subst; auto; intros a b Hab; simpl in *.
  - destruct a; [cbn; lia|discriminate].
  - destruct a as [|x a]; [cbn; lia|]. inversion Hab; subst. destruct a; [cbn; lia|discriminate].
Qed.

Lemma safe_next : forall v, safe v ->
  fst (vnext v) <> None /\ safe (snd (vnext v)).
Proof.
  intros [d l f] Hs. unfold vnext; simpl. destruct l as [|e l]; simpl.
  - split; [discriminate|assumption].
  - destruct (bump d e) as [d'|] eqn:Hb; simpl.
    + split; [discriminate|]. intros a b Hab; simpl in *.
      specialize (Hs (e :: a) b). simpl in Hs. rewrite Hab in Hs. specialize (Hs eq_refl).
      rewrite ends_cons, starts_cons in Hs. apply bump_count in Hb. lia.
    + exfalso. destruct e; simpl in Hb; try discriminate. destruct d; [|discriminate].
      specialize (Hs [EEnd n] l eq_refl). cbn in Hs. lia.
Qed.

Lemma safe_peek : forall st, safe (view st) -> safe (view (snd (peek st))).
Proof.
  intros st Hs. destruct (peek st) as [r st'] eqn:Hp. simpl.
  destruct (peek_view _ _ _ Hp) as [_ [->|(-> & H1 & H2)]]; [assumption|].
  intros a b Hab; simpl in *. destruct a as [|x a]; [cbn; lia|].
  inversion Hab; subst. destruct a; [cbn; lia|discriminate].
Qed.

Lemma exec_safe : forall h st, safe (view st) -> exec h st <> None.
Proof.
  induction h as [|[|] h IH]; intros st Hs; simpl.
  - discriminate.
  - apply IH. apply safe_peek; assumption.
  - destruct (next_view st) as [H1 H2]. destruct (safe_next _ Hs) as [H3 H4].
    destruct (next_event st) as [o st']; simpl in *.
    rewrite <- H1 in H3. destruct o as [[e|m]|]; [| |congruence].
    + assert (Hst : safe (view st')) by (eapply safe_veq; [apply veq_sym; exact H2|exact H4]).
      specialize (IH _ Hst). destruct (exec h st') as [[? ?]|]; [discriminate|congruence].
    + apply IH. eapply safe_veq; [apply veq_sym; exact H2|exact H4].
Qed.

Lemma vis_count : forall l, ends (vis l) = ends l /\ starts (vis l) = starts l.
Proof.
  induction l as [|e l [IH1 IH2]]; [split; reflexivity|].
  unfold vis, ends, starts in *; simpl.
  destruct e; simpl; rewrite IH1, IH2; auto.
Qed.

Lemma filter_app_inv : forall A (p : A -> bool) l a b, filter p l = a ++ b ->
  exists l1 l2, l = l1 ++ l2 /\ filter p l1 = a /\ filter p l2 = b.
Proof.
  induction l as [|x l IH]; intros a b H; simpl in H.
  - destruct a; [|discriminate]. simpl in H; subst. exists [], []; auto.
  - destruct (p x) eqn:Hx.
    + destruct a as [|y a]; simpl in H.
      * exists [], (x :: l). simpl. rewrite Hx. auto.
      * inversion H; subst. destruct (IH _ _ H2) as (l1 & l2 & -> & <- & <-).
        exists (y :: l1), l2. simpl. rewrite Hx. auto.
    + destruct (IH _ _ H) as (l1 & l2 & -> & <- & <-).
      exists (x :: l1), l2. simpl. rewrite Hx. auto.
Qed.

Lemma well_nested_safe : forall evs f, well_nested evs -> safe (view (d_init (Stream evs f))).
Proof.
  intros evs f H a b Hab. unfold view in *; simpl in *.
  destruct (filter_app_inv _ _ _ _ _ Hab) as (l1 & l2 & -> & <- & <-).
  pose proof (well_nested_prefix _ H l1 l2 eq_refl).
  change (filter visible l1) with (vis l1).
  destruct (vis_count l1) as [-> ->]. assumption.
Qed.

Lemma C02_lemma : forall h s,
  (forall l st, exec h (d_init s) = Some (l, st) -> d_depth st + ends l = starts l) /\
  (well_nested (s_evs s) -> exists l st, exec h (d_init s) = Some (l, st)).
Proof.
  intros h [evs f]; split.
  - intros l st H. apply exec_depth in H. simpl in H. lia.
  - intros H. pose proof (exec_safe h _ (well_nested_safe evs f H)) as He.
    destruct (exec h (d_init (Stream evs f))) as [[l st]|]; [eauto|congruence].
Qed.

(** ** C04 *)
Definition pure_cb {S} (g : S -> event -> S) : S -> event -> prog S := fun s e => Ret (g s e).

Lemma run_skip_step : forall S (g : S -> event -> S) m D s d evs f e d',
  D <= d -> visible e = true -> bump d e = Some d' ->
  run (skip_loop (Datatypes.S m) D (pure_cb g) s) (DState d (Stream (e :: evs) f) None) =
  run (skip_loop m D (pure_cb g) (g s e)) (DState d' (Stream evs f) None).
Proof.
  intros S g m D s d evs f e d' HD Hv Hb. simpl.
  replace (Nat.leb D d) with true by (symmetry; apply Nat.leb_le; lia).
  simpl. unfold next_event; simpl. unfold inner_next; simpl.
  unfold visible in Hv. destruct (invisible e); [discriminate|]. simpl. rewrite Hb. reflexivity.
Qed.

Lemma run_skip_invisible : forall S (g : S -> event -> S) m D s d evs f e,
  D <= d -> visible e = false ->
  run (skip_loop (Datatypes.S m) D (pure_cb g) s) (DState d (Stream (e :: evs) f) None) =
  run (skip_loop (Datatypes.S m) D (pure_cb g) s) (DState d (Stream evs f) None).
Proof.
  intros S g m D s d evs f e HD Hv. simpl.
  replace (Nat.leb D d) with true by (symmetry; apply Nat.leb_le; lia).
  simpl. unfold next_event; simpl. unfold inner_next; simpl.
  unfold visible in Hv. destruct (invisible e); [reflexivity|discriminate].
Qed.

Lemma run_skip_inner : forall l, well_nested l ->
  forall S (g : S -> event -> S) m D s d tail f, D <= d ->
  run (skip_loop (List.length (strip l) + Datatypes.S m) D (pure_cb g) s)
      (DState d (Stream (l ++ tail) f) None) =
  run (skip_loop (Datatypes.S m) D (pure_cb g) (fold_left g (strip l) s))
      (DState d (Stream tail f) None).
Proof.
  intros l H; induction H; intros S g k D st d tail f HD.
  - reflexivity.
  - destruct (visible e) eqn:Hv.
    + replace (strip [e]) with [e] by (rewrite strip_vis; unfold vis; simpl; rewrite Hv; reflexivity).
      simpl List.length. simpl fold_left.
      change (1 + Datatypes.S k) with (Datatypes.S (Datatypes.S k)).
      change (([e] ++ tail)) with (e :: tail).
      apply run_skip_step; auto.
      destruct e; simpl in *; try reflexivity; exfalso; [eapply H|eapply H0]; reflexivity.
    + replace (strip [e]) with (@nil event) by (rewrite strip_vis; unfold vis; simpl; rewrite Hv; reflexivity).
      apply run_skip_invisible; auto.
  - assert (Hs : strip (a ++ b) = strip a ++ strip b) by (unfold strip; apply filter_app).
    rewrite Hs, app_length, <- app_assoc, fold_left_app.
    replace (List.length (strip a) + List.length (strip b) + Datatypes.S k)
      with (List.length (strip a) + Datatypes.S (List.length (strip b) + k)) by lia.
    rewrite IHwell_nested1 by assumption.
    replace (Datatypes.S (List.length (strip b) + k)) with (List.length (strip b) + Datatypes.S k) by lia.
    apply IHwell_nested2; assumption.
  - assert (Hs : strip (EStart n a s :: l ++ [EEnd m]) = EStart n a s :: strip l ++ [EEnd m]).
    { unfold strip. simpl. rewrite filter_app. reflexivity. }
    rewrite Hs. simpl List.length. rewrite app_length. simpl List.length.
    replace (Datatypes.S (List.length (strip l) + 1) + Datatypes.S k)
      with (Datatypes.S (List.length (strip l) + Datatypes.S (Datatypes.S k))) by lia.
    change ((EStart n a s :: l ++ [EEnd m]) ++ tail) with (EStart n a s :: (l ++ [EEnd m]) ++ tail).
    rewrite (run_skip_step _ g _ D st d _ f (EStart n a s) (Datatypes.S d)); auto.
    rewrite <- app_assoc.
    rewrite IHwell_nested by lia.
    simpl ([EEnd m] ++ tail).
    rewrite (run_skip_step _ g _ D _ (Datatypes.S d) tail f (EEnd m) d) by (auto with arith).
    simpl fold_left. rewrite fold_left_app. reflexivity.
Qed.

Lemma C04_ok : forall S (g : S -> event -> S) s d inner n rest f,
  well_nested inner ->
  exists fuel0, forall fuel, fuel0 <= fuel ->
  run (skip_element fuel (fun s e => Ret (g s e)) s)
      (DState (Datatypes.S d) (Stream (inner ++ EEnd n :: rest) f) None)
  = (OOk (fold_left g (strip inner ++ [EEnd n]) s), DState d (Stream rest f) None).
Proof.
  intros S g s d inner n rest f H. exists (List.length (strip inner) + 2). intros fuel Hf.
  unfold skip_element. simpl.
  replace fuel with (List.length (strip inner) + Datatypes.S (Datatypes.S (fuel - List.length (strip inner) - 2))) by lia.
  change (fun (s0 : S) (e : event) => Ret (g s0 e)) with (pure_cb g).
  rewrite (run_skip_inner _ H) by lia.
  rewrite (run_skip_step _ g _ (Datatypes.S d) _ (Datatypes.S d) rest f (EEnd n) d) by auto.
  rewrite fold_left_app. simpl.
  destruct d; [reflexivity|].
  replace (Nat.leb (Datatypes.S d) d) with false by (symmetry; apply Nat.leb_gt; lia).
  reflexivity.
Qed.

Lemma C04_err_aux : forall S (g : S -> event -> S) m pre D d s,
  D <= d -> (forall a b, pre = a ++ b -> ends a <= (d - D) + starts a) ->
  exists fuel0, forall fuel, fuel0 <= fuel ->
  fst (run (skip_loop fuel D (pure_cb g) s) (DState d (Stream pre (FErr m)) None)) = OErr m.
Proof.
  induction pre as [|e pre IH]; intros D d s HD Hp.
  - exists 1. intros fuel Hf. destruct fuel; [lia|]. simpl.
    replace (Nat.leb D d) with true by (symmetry; apply Nat.leb_le; lia). reflexivity.
  - destruct (visible e) eqn:Hv.
    + destruct (bump d e) as [d'|] eqn:Hb.
      * pose proof (bump_count _ _ _ Hb) as Hc.
        pose proof (Hp [e] pre eq_refl) as H1.
        assert (HD' : D <= d') by lia.
        destruct (IH D d' (g s e) HD') as [f0 Hf0].
        { intros a b Hab. specialize (Hp (e :: a) b). simpl in Hp. rewrite Hab in Hp.
          specialize (Hp eq_refl). rewrite ends_cons, starts_cons in Hp. lia. }
        exists (Datatypes.S f0). intros fuel Hf. destruct fuel; [lia|].
        rewrite (run_skip_step _ g _ D s d pre (FErr m) e d') by auto. apply Hf0. lia.
      * exfalso. destruct e; simpl in Hb; try discriminate. destruct d; [|discriminate].
        specialize (Hp [EEnd n] pre eq_refl). cbn in Hp. lia.
    + destruct (IH D d s HD) as [f0 Hf0].
      { intros a b Hab. specialize (Hp (e :: a) b). simpl in Hp. rewrite Hab in Hp.
        specialize (Hp eq_refl). rewrite ends_cons, starts_cons in Hp.
        destruct e; simpl in Hv; try discriminate; cbn in Hp; lia. }
      exists (Datatypes.S f0). intros fuel Hf. destruct fuel; [lia|].
      rewrite run_skip_invisible by auto. apply Hf0. lia.
Qed.

Lemma C04_err : forall S (g : S -> event -> S) s d pre m,
  (forall a b, pre = a ++ b -> ends a <= starts a) ->
  exists fuel0, forall fuel, fuel0 <= fuel ->
  fst (run (skip_element fuel (fun s e => Ret (g s e)) s)
      (DState (Datatypes.S d) (Stream pre (FErr m)) None)) = OErr m.
Proof.
  intros S g s d pre m Hp. unfold skip_element. simpl.
  apply (C04_err_aux S g m pre (Datatypes.S d) (Datatypes.S d) s); auto.
  intros a b Hab. specialize (Hp a b Hab). lia.
Qed.

(** ** C05 *)
Lemma opt_eqb_eq : forall a b, opt_eqb a b = true <-> a = b.
Proof.
  intros [a|] [b|]; simpl; split; intros H; try discriminate; auto.
  - apply String.eqb_eq in H; congruence.
  - inversion H; apply String.eqb_refl.
Qed.

Lemma name_eqb_eq : forall a b, name_eqb a b = true <-> a = b.
Proof.
  intros [l1 n1 p1] [l2 n2 p2]; unfold name_eqb; simpl.
  rewrite !andb_true_iff, String.eqb_eq, !opt_eqb_eq.
  split; [intros [[-> ->] ->]; reflexivity|intros H; inversion H; auto].
Qed.

Lemma C05_lemma : forall A (f : prog A) st a st',
  run (read_inner_value f) st = (OOk a, st') <->
  exists n ats ns st1 st2,
    next_event st = (Some (Ok (EStart n ats ns)), st1) /\
    run f st1 = (OOk a, st2) /\
    next_event st2 = (Some (Ok (EEnd n)), st').
Proof.
  intros A f st a st'. unfold read_inner_value; simpl. split.
  - intros H. destruct (next_event st) as [[[e|m]|] st1] eqn:Hn; try discriminate.
    destruct e; try discriminate. rewrite run_bind in H.
    destruct (run f st1) as [o st2] eqn:Hf. destruct o; try discriminate.
    simpl in H.
    destruct (next_event st2) as [[[e|m]|] st3] eqn:Hn2; try discriminate.
    simpl in H. destruct e; try discriminate.
    destruct (name_eqb n0 n) eqn:He; [|discriminate]. simpl in H. inversion H; subst.
    apply name_eqb_eq in He; subst. do 5 eexists; repeat split; eauto.
  - intros (n & ats & ns & st1 & st2 & H1 & H2 & H3).
    rewrite H1, run_bind, H2. simpl. rewrite H3. simpl.
    replace (name_eqb n n) with true by (symmetry; apply name_eqb_eq; reflexivity).
    reflexivity.
Qed.

Lemma C05_depth : forall A (f : prog A) st a st' st1 st2 r,
  run (read_inner_value f) st = (OOk a, st') ->
  next_event st = (Some r, st1) -> run f st1 = (OOk a, st2) ->
  (d_depth st' = d_depth st <-> d_depth st2 = d_depth st1).
Proof.
  intros A f st a st' st1 st2 r H H1 H2. apply C05_lemma in H.
  destruct H as (n & ats & ns & st1' & st2' & K1 & K2 & K3).
  rewrite H1 in K1. inversion K1; subst. rewrite H2 in K2. inversion K2; subst.
  apply next_depth in H1. apply next_depth in K3. cbn in H1, K3. lia.
Qed.

(** ** C06 *)
Definition left (st : dstate) : nat := List.length (s_evs (d_src st)).

Lemma inner_next_app : forall pre c f,
  (exists e pre', forall c f, inner_next_evs (pre ++ c) f = (Ok e, pre' ++ c)) \/
  inner_next_evs (pre ++ c) f = inner_next_evs c f.
Proof.
  induction pre as [|e pre IH]; intros c f; simpl.
  - right; reflexivity.
  - destruct (invisible e).
    + destruct (IH c f) as [H|H]; [left; assumption|right; assumption].
    + left. exists e, pre. reflexivity.
Qed.

Lemma inner_next_len : forall l f r l', inner_next_evs l f = (r, l') ->
  List.length l' <= List.length l /\ (l <> [] -> List.length l' < List.length l).
Proof.
  induction l as [|e l IH]; intros f r l' H; simpl in H.
  - inversion H; subst. simpl. split; [lia|congruence].
  - destruct (invisible e).
    + apply IH in H. simpl. lia.
    + inversion H; subst. simpl. lia.
Qed.

Lemma left_peek : forall st, left (snd (peek st)) <= left st.
Proof.
  intros [d [evs f] pk]; unfold peek, left; simpl. destruct pk; [simpl; lia|].
  unfold inner_next; simpl. destruct (inner_next_evs evs f) as [[e|m] r] eqn:H;
  apply inner_next_len in H; simpl; lia.
Qed.

Lemma left_next : forall st, left (snd (next_event st)) <= left st.
Proof.
  intros [d [evs f] pk]; unfold next_event, left; simpl. destruct pk as [e|].
  - destruct (bump d e); simpl; lia.
  - unfold inner_next; simpl. destruct (inner_next_evs evs f) as [[e|m] r] eqn:H;
    apply inner_next_len in H; simpl; [destruct (bump d e)|]; simpl; lia.
Qed.

Lemma left_run : forall A (p : prog A) st, left (snd (run p st)) <= left st.
Proof.
  induction p as [a|m|m| |k IH|k IH|k IH]; intros st; simpl; try lia.
  - pose proof (left_peek st). destruct (peek st) as [r st']; simpl in *.
    specialize (IH r st'). lia.
  - pose proof (left_next st). destruct (next_event st) as [[r|] st']; simpl in *; [|lia].
    specialize (IH r st'). lia.
  - apply IH.
Qed.

Definition mkst (d : nat) (pk : option event) (l : list event) (f : fin) : dstate :=
  DState d (Stream l f) pk.

Lemma peek_cont : forall d pk pre c1 f1, c1 <> [] ->
  List.length c1 <= left (snd (peek (mkst d pk (pre ++ c1) f1))) ->
  exists r pk' pre', forall c f, peek (mkst d pk (pre ++ c) f) = (r, mkst d pk' (pre' ++ c) f).
Proof.
  intros d pk pre c1 f1 Hne Hl. unfold peek, mkst, left in *; simpl in *.
  destruct pk as [e|].
  - exists (Ok e), (Some e), pre. reflexivity.
  - unfold inner_next in *; simpl in *.
    destruct (inner_next_app pre c1 f1) as [(e & pre' & H)|H].
    + exists (Ok e), (Some e), pre'. intros. rewrite H. reflexivity.
    + exfalso. rewrite H in Hl. destruct (inner_next_evs c1 f1) as [[e|m] r] eqn:Hi;
      apply inner_next_len in Hi; destruct Hi as [_ Hi]; specialize (Hi Hne); simpl in Hl; lia.
Qed.

Lemma next_cont : forall d pk pre c1 f1, c1 <> [] ->
  List.length c1 <= left (snd (next_event (mkst d pk (pre ++ c1) f1))) ->
  exists r d' pre', forall c f, next_event (mkst d pk (pre ++ c) f) = (r, mkst d' None (pre' ++ c) f).
Proof.
  intros d pk pre c1 f1 Hne Hl. unfold next_event, mkst, left in *; simpl in *.
  destruct pk as [e|].
  - destruct (bump d e) as [d'|]; do 3 eexists; reflexivity.
  - unfold inner_next in *; simpl in *.
    destruct (inner_next_app pre c1 f1) as [(e & pre' & H)|H].
    + destruct (bump d e) as [d'|] eqn:Hb.
      * exists (Some (Ok e)), d', pre'. intros. rewrite H, Hb. reflexivity.
      * exists None, d, pre'. intros. rewrite H, Hb. reflexivity.
    + exfalso. rewrite H in Hl. destruct (inner_next_evs c1 f1) as [[e|m] r] eqn:Hi;
      apply inner_next_len in Hi; destruct Hi as [_ Hi]; specialize (Hi Hne); simpl in Hl;
      [destruct (bump d e); simpl in Hl|]; lia.
Qed.

Lemma C06_aux : forall A (p : prog A) d pk pre c1 f1, c1 <> [] ->
  List.length c1 <= left (snd (run p (mkst d pk (pre ++ c1) f1))) ->
  exists o d' pk' pre', forall c f,
    run p (mkst d pk (pre ++ c) f) = (o, mkst d' pk' (pre' ++ c) f).
Proof.
  induction p as [a|m|m| |k IH|k IH|k IH]; intros d pk pre c1 f1 Hne Hl; simpl in *;
    try (do 4 eexists; reflexivity).
  - pose proof (peek_cont d pk pre c1 f1 Hne) as Hpk.
    destruct (peek (mkst d pk (pre ++ c1) f1)) as [r st'] eqn:Hp. simpl in Hpk.
    pose proof (left_run _ (k r) st') as Hlr.
    destruct Hpk as (r2 & pk2 & pre2 & H2); [lia|].
    pose proof (H2 c1 f1) as H3. rewrite Hp in H3. inversion H3; subst.
    destruct (IH r2 d pk2 pre2 c1 f1 Hne Hl) as (o & d' & pk' & pre' & H).
    exists o, d', pk', pre'. intros. rewrite H2. apply H.
  - pose proof (next_cont d pk pre c1 f1 Hne) as Hpk.
    destruct (next_event (mkst d pk (pre ++ c1) f1)) as [[r|] st'] eqn:Hp; simpl in Hpk.
    + pose proof (left_run _ (k r) st') as Hlr.
      destruct Hpk as (r2 & d2 & pre2 & H2); [lia|].
      pose proof (H2 c1 f1) as H3. rewrite Hp in H3. inversion H3; subst.
      destruct (IH r d2 None pre2 c1 f1 Hne Hl) as (o & d' & pk' & pre' & H).
      exists o, d', pk', pre'. intros. rewrite H2. apply H.
    + simpl in Hl. destruct (Hpk Hl) as (r2 & d2 & pre2 & H2).
      pose proof (H2 c1 f1) as H3. rewrite Hp in H3. inversion H3; subst.
      do 4 eexists. intros. rewrite H2. reflexivity.
  - apply (IH d d pk pre c1 f1); assumption.
Qed.

Lemma C06_lemma : forall A (p : prog A) pre c1 f1 c2 f2,
  c1 <> [] ->
  List.length c1 <= List.length (s_evs (d_src (snd (run p (d_init (Stream (pre ++ c1) f1)))))) ->
  fst (run p (d_init (Stream (pre ++ c2) f2))) = fst (run p (d_init (Stream (pre ++ c1) f1))).
Proof.
  intros A p pre c1 f1 c2 f2 Hne Hl.
  destruct (C06_aux A p 0 None pre c1 f1 Hne Hl) as (o & d' & pk' & pre' & H).
  change (d_init (Stream (pre ++ c2) f2)) with (mkst 0 None (pre ++ c2) f2).
  change (d_init (Stream (pre ++ c1) f1)) with (mkst 0 None (pre ++ c1) f1).
  rewrite !H. reflexivity.
Qed.
