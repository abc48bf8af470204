(** * A nested element is read like one that stands alone (C53): proofs. *)
From Verif Require Import Str Num Xml XmlText Reader Schema De SpecReader SpecStruct SpecCut
  RunFacts ReaderProofs TreeFacts CompleteProofs CutProofs.
From Coq Require Import Lia.
Open Scope list_scope.

(** ** The same program at two depths *)
Section Depths.
  Variable k : nat.
  Definition deeper (v : vstate) : vstate := VState (v_depth v + k) (v_rest v) (v_fin v).

  (** What [p] returns, [q] returns [k] elements further down. *)
  Definition par {A} (p q : prog A) : Prop := forall v a v1,
    vrun p v = (OOk a, v1) -> vrun q (deeper v) = (OOk a, deeper v1).
  (** The same for errors. *)
  Definition parE {A} (p q : prog A) : Prop := forall v,
    match vrun p v with
    | (OOk a, v1) => vrun q (deeper v) = (OOk a, deeper v1)
    | (OErr m, v1) => vrun q (deeper v) = (OErr m, deeper v1)
    | _ => True
    end.

  Lemma parE_par : forall A (p q : prog A), parE p q -> par p q.
  Proof. intros A p q H v a v1 Hv. specialize (H v). rewrite Hv in H. exact H. Qed.
  Lemma par_ret : forall A (a : A), par (Ret a) (Ret a).
  Proof. intros A a v b v1 H. inversion H; subst. reflexivity. Qed.
  Lemma par_throw : forall A m (q : prog A), par (Throw m) q.
  Proof. intros A m q v b v1 H. discriminate H. Qed.
  Lemma par_bind : forall A B (p q : prog A) (f g : A -> prog B),
    par p q -> (forall a, par (f a) (g a)) -> par (bind p f) (bind q g).
  Proof.
    intros A B p q f g Hp Hf v b v1 H. apply bind_ok in H. destruct H as (a & v' & H1 & H2).
    rewrite vrun_bind, (Hp _ _ _ H1). apply (Hf a). exact H2.
  Qed.
  Lemma par_depth : forall A (p q : nat -> prog A), (forall d, par (p d) (q (d + k))) -> par (Depth p) (Depth q).
  Proof. intros A p q H v a v1 Hv. cbn [vrun] in *. apply H. exact Hv. Qed.
  Lemma par_peek : forall A (p q : res event -> prog A), (forall r, par (p r) (q r)) -> par (Peek p) (Peek q).
  Proof. intros A p q H v a v1 Hv. cbn [vrun] in *. apply H. exact Hv. Qed.
  Lemma next_deeper : forall v r v1, vnext v = (Some r, v1) -> vnext (deeper v) = (Some r, deeper v1).
  Proof.
    intros v r v1 H. unfold vnext in *. cbn [deeper v_rest v_fin v_depth]. destruct (v_rest v) as [|e l].
    - inversion H; subst. reflexivity.
    - destruct (bump (v_depth v) e) as [d|] eqn:Hb; [|discriminate]. inversion H; subst.
      replace (bump (v_depth v + k) e) with (Some (d + k)); [reflexivity|].
      destruct e; cbn [bump] in *; try (inversion Hb; subst; reflexivity).
      destruct (v_depth v) as [|d']; [discriminate|]. inversion Hb; subst. reflexivity.
  Qed.
  Lemma par_next : forall A (p q : res event -> prog A), (forall r, par (p r) (q r)) -> par (Next p) (Next q).
  Proof.
    intros A p q H v a v1 Hv. cbn [vrun] in *. destruct (vnext v) as [[r|] v'] eqn:Hn; [|discriminate].
    rewrite (next_deeper _ _ _ Hn). apply H. exact Hv.
  Qed.

  (** Programs that do not ask for the depth. *)
  Inductive even {A} : prog A -> Prop :=
  | even_ret : forall a, even (Ret a)
  | even_throw : forall m, even (Throw m)
  | even_crash : forall m, even (Crash m)
  | even_stuck : even Stuck
  | even_peek : forall f, (forall r, even (f r)) -> even (Peek f)
  | even_next : forall f, (forall r, even (f r)) -> even (Next f).
  Lemma even_par : forall A (p : prog A), even p -> parE p p.
  Proof.
    intros A p H. induction H as [a|m|m| |f _ IH|f _ IH]; intros v; cbn [vrun]; auto.
    - apply (IH (vpeek v) v).
    - destruct (vnext v) as [[r|] v'] eqn:Hn; [|exact I]. rewrite (next_deeper _ _ _ Hn). apply IH.
  Qed.
  Lemma even_bind : forall A B (p : prog A) (f : A -> prog B), even p -> (forall a, even (f a)) -> even (bind p f).
  Proof. intros A B p f H Hf. induction H; cbn [bind]; try constructor; auto. Qed.
  Lemma even_attempt : forall A (p : prog A), even p -> even (attempt p).
  Proof. intros A p H. induction H; cbn [attempt]; constructor; auto. Qed.
  Lemma even_res : forall A (r : res A), even (of_res r).
  Proof. intros A [a|m]; constructor. Qed.
  Lemma even_peek_ : even peek_.
  Proof. constructor. intros r. apply even_res. Qed.
  Lemma even_next_ : even next_.
  Proof. constructor. intros r. apply even_res. Qed.
  Lemma even_in : forall rec id s, even (from_str_in rec id s).
  Proof. intros rec id s. unfold from_str_in. destruct (fst _); constructor. Qed.
  Lemma even_write : forall u e, even (write_unused u e).
  Proof.
    intros u e. destruct u; cbn [write_unused]; try constructor. destruct (as_writer_event e); [|constructor].
    destruct (emit_check stack w) as [s' ok]. constructor.
  Qed.
  Lemma even_inner : forall A (p : prog A), even p -> even (read_inner_value p).
  Proof.
    intros A p H. unfold read_inner_value. constructor. intros r. destruct r as [e|]; [|constructor]. destruct e; try constructor.
    apply even_bind; [exact H|]. intros a. apply even_bind; [|intros; constructor].
    unfold expect_end_element. apply even_bind; [apply even_next_|]. intros e. destruct e; try constructor.
    destruct (name_eqb n0 n); constructor.
  Qed.

  Section Body.
    Variables (x : ext) (E : env) (rec : nat -> prog value) (fuel : nat).
    Hypothesis Hrec : forall id, par (rec id) (rec id).

    Lemma even_attr : forall b t, even (visit_attr x E rec b t).
    Proof. intros [s|id] t; cbn [visit_attr]; [apply even_res|]. destruct (nth_error E id); [apply even_in|constructor]. Qed.
    Lemma even_items : forall b i l ss, even (visit_attr_items x E rec b i l ss).
    Proof. induction l as [|t l IH]; intros ss; cbn [visit_attr_items]; [constructor|]. apply even_bind; [apply even_attr|]. intros v. apply IH. Qed.
    Lemma even_load : forall f i l ss, even (load_attr x E rec f i l ss).
    Proof.
      induction l as [|a l IH]; intros ss; cbn [load_attr]; [constructor|]. apply even_bind; [|intros; apply IH].
      destruct (String.eqb _ _); [|constructor].
      assert (Hg : forall b, even (let* v := visit_attr x E rec b (at_value a) in Ret (upd i (put_slot v) ss))).
      { intros b. apply even_bind; [apply even_attr|]. intros v; constructor. }
      destruct (f_ty f) as [[[]|]|b|b|b]; auto using even_items; constructor.
    Qed.
    Lemma even_loads : forall fs i l ss, even (load_attrs x E rec fs i l ss).
    Proof.
      induction fs as [|f fs IH]; intros i l ss; cbn [load_attrs]; [constructor|]. apply even_bind; [|intros; apply IH].
      destruct (ya_attribute (f_attrs f)); [apply even_load|constructor].
    Qed.
    Lemma even_flatten : forall fs i t ss, even (visit_flatten rec fs i t ss).
    Proof.
      induction fs as [|f fs IH]; intros i t ss; cbn [visit_flatten]; [constructor|].
      apply even_bind; [|intros; apply IH]. destruct (_ && _)%bool; [|constructor].
      destruct (f_ty f) as [b|b|b|b]; try constructor; destruct b as [s|id]; try constructor.
      - apply even_bind; [apply even_in|]. intros a; constructor.
      - apply even_bind; [apply even_attempt, even_in|]. intros a; constructor.
    Qed.
    Lemma par_even : forall A (p : prog A), even p -> par p p.
    Proof. intros A p H. apply parE_par, even_par, H. Qed.

    Lemma par_skip_loop : forall (cb : uwriter -> event -> prog uwriter), (forall u e, even (cb u e)) ->
      forall fl d u, par (skip_loop fl d cb u) (skip_loop fl (d + k) cb u).
    Proof.
      intros cb Hcb fl. induction fl as [|fl IH]; intros d u; cbn [skip_loop]; [intros v a v1 H; discriminate H|].
      apply par_depth. intros c. replace (Nat.leb (d + k) (c + k)) with (Nat.leb d c).
      2:{ destruct (Nat.leb d c) eqn:H1; symmetry; [apply Nat.leb_le|apply Nat.leb_gt];
          [apply Nat.leb_le in H1|apply Nat.leb_gt in H1]; lia. }
      destruct (Nat.leb d c); [|apply par_ret].
      apply par_bind; [apply par_even, even_next_|]. intros e. apply par_bind; [apply par_even, Hcb|]. intros u'. apply IH.
    Qed.
    Lemma par_skip : forall fl u, par (skip_element fl write_unused u) (skip_element fl write_unused u).
    Proof. intros fl u. apply par_depth. intros d. apply par_skip_loop. apply even_write. Qed.

    Lemma par_arm_struct : forall i id d ss, par (arm_struct rec i id d ss) (arm_struct rec i id d ss).
    Proof.
      intros i id d ss. unfold arm_struct.
      assert (Hgo : par (Peek (fun r => match r with
        | Ok (EStart _ _ _) => let* v := rec id in next_ ;; Ret (upd i (put_slot v) ss) | _ => Ret ss end))
        (Peek (fun r => match r with
        | Ok (EStart _ _ _) => let* v := rec id in next_ ;; Ret (upd i (put_slot v) ss) | _ => Ret ss end))).
      { apply par_peek. intros r. destruct r as [e|]; [|apply par_ret]. destruct e; try apply par_ret.
        apply par_bind; [apply Hrec|]. intros v. apply par_bind; [apply par_even, even_next_|]. intros; apply par_ret. }
      destruct (Z.eqb d 0); [|exact Hgo]. apply par_next. intros _. exact Hgo.
    Qed.
    Lemma even_arm_simple : forall ra i f s n ss, even (arm_simple x ra i f s n ss).
    Proof.
      intros ra i f s n ss. unfold arm_simple. destruct (namespace_check _ _ _ _); [constructor|].
      apply even_bind.
      - apply even_attempt, even_inner. constructor. intros r. destruct r as [e|]; [|constructor]. destruct e; try constructor.
        intros r2. destruct r2; cbn; [apply even_res|constructor].
      - intros r. destruct r; constructor.
    Qed.

    Lemma par_struct_loop : forall fl td fs ln sd st,
      par (struct_loop x E rec fuel fl td fs ln sd st) (struct_loop x E rec fuel fl td fs ln (sd + k) st).
    Proof.
      induction fl as [|fl IH]; intros td fs ln sd st; cbn [struct_loop]; [intros v a v1 H; discriminate H|].
      apply par_bind; [apply par_even, even_peek_|]. intros e. destruct e; try apply par_throw.
      - destruct (ya_flatten (t_attrs td)); [apply par_ret|apply IH].
      - apply par_bind; [|intros st1; apply par_bind; [|intros ss; apply IH]].
        + destruct (_ && _)%bool.
          { apply par_bind; [apply par_even, even_next_|]. intros ev. apply par_bind; [apply par_even, even_write|]. intros; apply par_ret. }
          destruct (find_field _ _ _ _ _) as [[i f]|].
          * apply par_bind; [|intros; apply par_ret]. destruct (fbase (f_ty f)); [apply par_even, even_arm_simple|apply par_arm_struct].
          * apply par_bind; [apply par_even, even_next_|]. intros ev. apply par_bind; [apply par_even, even_write|]. intros u.
            apply par_bind; [|intros; apply par_ret]. destruct (Z.ltb 0 (l_depth st)); [apply par_skip|apply par_ret].
        + destruct (Z.eqb (l_depth st1) 0); [apply par_even, even_loads|apply par_ret].
      - apply par_depth. intros d. replace (Nat.eqb (d + k) (S (sd + k))) with (Nat.eqb d (S sd)).
        2:{ destruct (Nat.eqb d (S sd)) eqn:H1; symmetry; [apply Nat.eqb_eq|apply Nat.eqb_neq];
            [apply Nat.eqb_eq in H1|apply Nat.eqb_neq in H1]; lia. }
        destruct (_ && _)%bool.
        + apply par_bind; [apply par_even, even_write|]. intros; apply par_ret.
        + apply par_bind; [apply par_even, even_next_|]. intros ev. apply par_bind; [apply par_even, even_write|]. intros; apply IH.
      - apply par_bind; [apply par_even, even_next_|]. intros ev. apply par_bind; [apply par_even, even_write|]. intros; apply IH.
    Qed.

    Lemma par_arm : forall i b cur, par (enum_arm x rec i b cur) (enum_arm x rec i b cur).
    Proof.
      intros i b cur. destruct b as [|fl t|fs]; cbn [enum_arm]; try apply par_ret.
      assert (Hset : forall v, even (set_payload t i v cur)).
      { intros v. destruct t; cbn [set_payload]; try constructor. destruct cur as [c|]; [|constructor].
        destruct c; try constructor. destruct l as [|a l]; try constructor.
        destruct a, l; try constructor. destruct (Nat.eqb i i0); constructor. }
      destruct (fbase t) as [s|id].
      - apply par_even. apply even_bind.
        + apply even_attempt, even_inner. apply even_bind; [apply even_peek_|]. intros e.
          assert (Hu : forall w, even (visit_unwrap x s w)). { intros w. unfold visit_unwrap. destruct (parse_simple x s w); constructor. }
          assert (Hn : even (Next (fun r => match r with Ok (EChars w) => visit_unwrap x s w | _ => Throw "unable to parse content for field_0" end))).
          { constructor. intros r. destruct r as [e'|]; [|constructor]. destruct e'; try constructor. apply Hu. }
          destruct e; try exact Hn. apply Hu.
        + intros r. destruct r; [|constructor]. apply even_bind; [apply Hset|]. intros; constructor.
      - apply par_bind; [apply Hrec|]. intros v. apply par_bind; [apply par_even, Hset|]. intros c. apply par_next. intros r. apply par_ret.
    Qed.
    Lemma par_enum_loop : forall fl td vs ln sd cur,
      par (enum_loop x rec fl td vs ln sd cur) (enum_loop x rec fl td vs ln (sd + k) cur).
    Proof.
      induction fl as [|fl IH]; intros td vs ln sd cur; cbn [enum_loop]; [intros v a v1 H; discriminate H|].
      apply par_bind; [apply par_even, even_peek_|]. intros e. destruct e; try apply par_throw.
      - destruct (ya_flatten (t_attrs td)); [apply par_ret|apply par_throw].
      - apply par_bind; [apply par_even, even_res|]. intros nm. apply par_bind.
        + destruct (find_variant vs 0 nm) as [[i b]|]; [apply par_arm|]. apply par_next. intros; apply par_ret.
        + intros [c brk]. destruct brk; [apply par_ret|]. apply par_bind; [apply par_even, even_peek_|]. intros e2.
          destruct e2; try apply IH. apply par_bind.
          * destruct (find_variant vs 0 s) as [[i b]|]; [apply par_arm|apply par_ret].
          * intros [c2 brk2]. destruct brk2; [apply par_ret|apply IH].
      - apply par_depth. intros d. replace (Nat.eqb (d + k) (S (sd + k))) with (Nat.eqb d (S sd)).
        2:{ destruct (Nat.eqb d (S sd)) eqn:H1; symmetry; [apply Nat.eqb_eq|apply Nat.eqb_neq];
            [apply Nat.eqb_eq in H1|apply Nat.eqb_neq in H1]; lia. }
        destruct (_ && _)%bool; [apply par_ret|]. apply par_next. intros; apply IH.
      - apply par_next. intros; apply IH.
    Qed.

    Lemma par_body : forall id, par (de_body x E rec fuel id) (de_body x E rec fuel id).
    Proof.
      intros id. unfold de_body. destruct (nth_error E id) as [td|]; [|intros v a v1 H; discriminate H].
      destruct (t_body td) as [fs|vs df|pk].
      - unfold de_struct. apply par_bind; [apply par_even, even_peek_|]. intros e.
        destruct (match e with EStart _ _ _ => _ | _ => _ end) as [ln sns]. apply par_depth. intros d.
        assert (Hgo : par (let* st := struct_loop x E rec fuel fuel td fs ln d
                       (LState (map (fun f => init_slot (f_ty f)) fs) (init_unused fs) 0) in
          let* ss := visit_unused rec fs (l_unused st) (l_slots st) in
          let* vs := of_res (build x (t_name td) fs ss) in
          Ret (VRec vs)) (let* st := struct_loop x E rec fuel fuel td fs ln (d + k)
                       (LState (map (fun f => init_slot (f_ty f)) fs) (init_unused fs) 0) in
          let* ss := visit_unused rec fs (l_unused st) (l_slots st) in
          let* vs := of_res (build x (t_name td) fs ss) in
          Ret (VRec vs))).
        { apply par_bind; [apply par_struct_loop|]. intros st. apply par_bind.
          - destruct (l_unused st); cbn [visit_unused]; try apply par_ret. apply par_even, even_flatten.
          - intros ss. apply par_bind; [apply par_even, even_res|]. intros; apply par_ret. }
        destruct d as [|d].
        + cbn [Nat.eqb]. destruct (namespace_check _ _ sns ln); [apply par_throw|].
          destruct (Nat.eqb (0 + k) 0); exact Hgo.
        + cbn [Nat.eqb Nat.add]. exact Hgo.
      - unfold de_enum. apply par_bind; [apply par_even, even_peek_|]. intros e.
        destruct (match e with EStart _ _ _ => _ | _ => _ end) as [ln sns]. apply par_depth. intros d.
        destruct (namespace_check _ _ _ _); [apply par_throw|]. apply par_bind; [apply par_enum_loop|]. intros; apply par_ret.
      - unfold de_prim. apply par_peek. intros r. destruct r as [e|]; [|apply par_throw]. destruct e; try apply par_throw.
        apply par_bind; [apply par_even, even_next_|]. intros _. apply par_peek. intros r2. apply par_even, even_res.
    Qed.
  End Body.

  Theorem par_de : forall x E fuel id, par (de x E fuel id) (de x E fuel id).
  Proof.
    intros x E. induction fuel as [|fuel IH]; intros id; cbn [de]; [intros v a v1 H; discriminate H|].
    apply par_body. exact IH.
  Qed.
End Depths.

(** ** And with something behind *)
Lemma cut_state : forall A (p : prog A) d l f l' f',
  v_rest (snd (vrun p (VState d l f))) = [] \/
  vrun p (VState d (l ++ l') f') =
    (fst (vrun p (VState d l f)),
     VState (v_depth (snd (vrun p (VState d l f)))) (v_rest (snd (vrun p (VState d l f))) ++ l') f').
Proof.
  induction p as [a|m|m| |k IH|k IH|k IH]; intros d l f l' f'; cbn [vrun fst snd]; auto.
  - destruct l as [|e l]; [left; apply vrun_empty; reflexivity|]. cbn [app]. apply (IH (Ok e) d (e :: l) f l' f').
  - destruct l as [|e l]; [left; cbn; apply vrun_empty; reflexivity|].
    cbn [app vnext v_rest v_depth v_fin]. destruct (bump d e) as [d'|]; [apply IH|auto].
Qed.

(** Reading ends inside of the element. *)
Lemma inside : forall x E fuel id td n a m c f v v1, nth_error E id = Some td ->
  ya_flatten (t_attrs td) = false \/ f <> FEnd ->
  vrun (de x E fuel id) (VState 0 (EStart n a m :: c ++ [EEnd n]) f) = (OOk v, v1) -> v_rest v1 <> [].
Proof.
  intros x E fuel id td n a m c f v v1 Htd Hf H.
  destruct (t_body td) as [fs|vs df|k] eqn:Hb.
  1,2: assert (Hc : compound td) by (unfold compound; rewrite Hb; exact I);
    destruct (de_stops _ _ _ _ _ _ _ _ Htd Hc H) as [Hs|[Hs1 Hs2]]; [exact Hs|];
    pose proof (vrun_fin _ (de x E fuel id) (VState 0 (EStart n a m :: c ++ [EEnd n]) f)) as Hv;
    rewrite H in Hv; cbn [snd v_fin] in Hv; destruct Hf; congruence.
  destruct fuel as [|fuel]; [discriminate|]. cbn [de] in H. unfold de_body in H. rewrite Htd, Hb in H.
  unfold de_prim, next_ in H. cbn [vrun vpeek v_rest bind vnext v_depth v_fin bump of_res] in H.
  destruct (parse_prim _ _ _ _) as [w|]; [|discriminate]. cbn in H. inversion H; subst. cbn [v_rest]. destruct c; discriminate.
Qed.

Theorem nested_alone : forall x E fuel id td n a m c f v st rest f',
  nth_error E id = Some td -> ya_flatten (t_attrs td) = false \/ f <> FEnd ->
  let alone := run (de x E fuel id) (d_init (Stream (EStart n a m :: c ++ [EEnd n]) f)) in
  fst alone = OOk v ->
  d_peeked st = None -> d_src st = Stream (EStart n a m :: c ++ EEnd n :: rest) f' ->
  fst (run (de x E fuel id) st) = OOk v /\
  d_depth (snd (run (de x E fuel id) st)) = d_depth st + d_depth (snd alone).
Proof.
  intros x E fuel id td n a m c f v st rest f' Htd Hf alone Ha Hp Hsrc. subst alone.
  destruct (run_view _ (de x E fuel id) (d_init (Stream (EStart n a m :: c ++ [EEnd n]) f))) as [H1 H2].
  destruct (run_view _ (de x E fuel id) st) as [H3 H4].
  rewrite H1 in Ha. rewrite H3. apply veq_depth in H2, H4. cbn [view v_depth] in H2, H4. rewrite H2, H4. clear H1 H2 H3 H4.
  rewrite view_init. rewrite view_init in Ha. cbn [s_evs s_fin] in *.
  unfold view. rewrite Hp, Hsrc. cbn [s_evs s_fin app]. unfold vis in *. cbn [filter visible invisible negb] in *.
  rewrite filter_app in Ha. rewrite !filter_app. cbn [filter visible invisible negb] in *.
  set (c' := filter visible c) in *. set (rest' := filter visible rest) in *.
  set (l := EStart n a m :: c' ++ [EEnd n]) in *.
  assert (Hl : EStart n a m :: c' ++ EEnd n :: rest' = l ++ rest') by (unfold l; cbn [app]; rewrite <- app_assoc; reflexivity).
  rewrite Hl. destruct (vrun (de x E fuel id) (VState 0 l f)) as [o v1] eqn:Hr. cbn [fst snd] in *. subst o.
  destruct (cut_state _ (de x E fuel id) 0 l f rest' f') as [Hx|Hx].
  - exfalso. rewrite Hr in Hx. cbn [snd] in Hx. eapply inside; [exact Htd|exact Hf|exact Hr|exact Hx].
  - rewrite Hr in Hx. cbn [fst snd] in Hx. pose proof (par_de (d_depth st) x E fuel id _ _ _ Hx) as Hd.
    unfold deeper in Hd. cbn [v_depth v_rest v_fin Nat.add] in Hd. rewrite Hd. cbn [fst snd v_depth]. split; [reflexivity|]. lia.
Qed.
