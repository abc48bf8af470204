(** * Prefixes, declarations and the order of attributes are not looked at
      (C42): proofs. *)
From Verif Require Import Str Num Xml XmlText Reader Schema De SpecReader SpecTree SpecStruct SpecSafe SpecTerm SpecComplete
  SpecAlike RunFacts ReaderProofs TreeFacts TermProofs CompleteProofs.
From Coq Require Import Lia Permutation.
Open Scope list_scope.

Definition vsim (v w : vstate) : Prop :=
  v_depth v = v_depth w /\ Forall2 alike_event (v_rest v) (v_rest w) /\ v_fin v = v_fin w /\
  (exists st, at_ st v) /\ (exists st, at_ st w).

Definition ralike (r r' : res event) : Prop :=
  match r, r' with Ok e, Ok e' => alike_event e e' | Er m, Er m' => m = m' | _, _ => False end.

(** Two programs do the same on alike inputs. *)
Definition sim {A B} (R : A -> B -> Prop) (p : prog A) (q : prog B) : Prop :=
  forall v w, vsim v w ->
  match vrun p v, vrun q w with
  | (OOk a, v'), (OOk b, w') => R a b /\ vsim v' w'
  | (OErr m, v'), (OErr m', w') => m = m' /\ vsim v' w'
  | (OPanic m, _), (OPanic m', _) => m = m'
  | (OFuel, _), (OFuel, _) => True
  | _, _ => False
  end.

Lemma sim_bind : forall A B C D (R : A -> B -> Prop) (Q : C -> D -> Prop) p q f g,
  sim R p q -> (forall a b, R a b -> sim Q (f a) (g b)) -> sim Q (bind p f) (bind q g).
Proof.
  intros A B C D R Q p q f g H Hf v w Hv. specialize (H v w Hv). rewrite !vrun_bind.
  destruct (vrun p v) as [[a|m|m|] v'], (vrun q w) as [[b|m'|m'|] w']; try contradiction; try exact H.
  destruct H as [HR Hv']. exact (Hf a b HR v' w' Hv').
Qed.
Lemma sim_attempt : forall A B (R : A -> B -> Prop) p q, sim R p q ->
  sim (fun r r' => match r, r' with Ok a, Ok b => R a b | Er m, Er m' => m = m' | _, _ => False end) (attempt p) (attempt q).
Proof.
  intros A B R p q H v w Hv. specialize (H v w Hv). rewrite !vrun_attempt.
  destruct (vrun p v) as [[a|m|m|] v'], (vrun q w) as [[b|m'|m'|] w']; try contradiction; exact H.
Qed.
Lemma sim_ret : forall A B (R : A -> B -> Prop) a b, R a b -> sim R (Ret a) (Ret b).
Proof. intros A B R a b H v w Hv. split; assumption. Qed.
Lemma sim_throw : forall A B (R : A -> B -> Prop) m, sim R (Throw m) (Throw m).
Proof. intros A B R m v w Hv. split; [reflexivity|assumption]. Qed.
Lemma sim_crash : forall A B (R : A -> B -> Prop) m, sim R (Crash m) (Crash m).
Proof. intros A B R m v w Hv. reflexivity. Qed.
Lemma sim_stuck : forall A B (R : A -> B -> Prop), sim R Stuck Stuck.
Proof. intros A B R v w Hv. exact I. Qed.
Lemma sim_of_res : forall A (r : res A), sim eq (of_res r) (of_res r).
Proof. intros A [a|m]; [apply sim_ret; reflexivity|apply sim_throw]. Qed.

Lemma vpeek_alike : forall v w, vsim v w -> ralike (vpeek v) (vpeek w).
Proof.
  intros v w (_ & Hr & Hf & _). unfold vpeek. rewrite Hf.
  destruct Hr; [destruct (v_fin w); reflexivity|assumption].
Qed.
Lemma sim_peek : forall A B (R : A -> B -> Prop) k k',
  (forall r r', ralike r r' -> sim R (k r) (k' r')) -> sim R (Peek k) (Peek k').
Proof. intros A B R k k' H v w Hv. cbn [vrun]. exact (H _ _ (vpeek_alike _ _ Hv) v w Hv). Qed.
Lemma sim_depth : forall A B (R : A -> B -> Prop) k k',
  (forall d, sim R (k d) (k' d)) -> sim R (Depth k) (Depth k').
Proof. intros A B R k k' H v w Hv. cbn [vrun]. rewrite <- (proj1 Hv). exact (H _ v w Hv). Qed.

Lemma vnext_alike : forall v w, vsim v w -> exists r r' v' w',
  vnext v = (Some r, v') /\ vnext w = (Some r', w') /\ ralike r r' /\ vsim v' w'.
Proof.
  intros v w Hv. destruct Hv as (Hd & Hr & Hf & (st & Ha) & (st' & Ha')).
  destruct (v_rest v) as [|e r] eqn:Hrv; destruct (v_rest w) as [|e' r'] eqn:He; try (inversion Hr; fail).
  - unfold vnext. rewrite Hrv, He. exists (fin_res (v_fin v)), (fin_res (v_fin w)), v, w. repeat split; auto.
    + rewrite Hf. destruct (v_fin w); reflexivity.
    + rewrite Hrv, He. constructor.
    + eauto.
    + eauto.
  - inversion Hr as [|? ? ? ? Hee' Hrr']; subst. destruct (next_at _ _ _ _ Ha Hrv) as (s1 & v1 & N1 & R1 & A1 & _).
    destruct (next_at _ _ _ _ Ha' He) as (s2 & w1 & N2 & R2 & A2 & _).
    exists (Ok e), (Ok e'), v1, w1. split; [exact N1|]. split; [exact N2|]. split; [exact Hee'|].
    unfold vnext in N1, N2. rewrite Hrv in N1. rewrite He in N2. rewrite <- Hd in N2.
    assert (Hb : bump (v_depth v) e = bump (v_depth v) e').
    { destruct e, e'; cbn [alike_event] in Hee'; try discriminate Hee'; reflexivity. }
    rewrite <- Hb in N2. destruct (bump (v_depth v) e); [|discriminate]. inversion N1; subst v1. inversion N2; subst w1.
    split; [reflexivity|]. split; [exact Hrr'|]. split; [exact Hf|]. split; eauto.
Qed.
Lemma sim_next : forall A B (R : A -> B -> Prop) k k',
  (forall r r', ralike r r' -> sim R (k r) (k' r')) -> sim R (Next k) (Next k').
Proof.
  intros A B R k k' H v w Hv. cbn [vrun]. destruct (vnext_alike v w Hv) as (r & r' & v' & w' & -> & -> & Hr & Hv').
  exact (H _ _ Hr v' w' Hv').
Qed.
Lemma sim_peek_ : sim alike_event peek_ peek_.
Proof. apply sim_peek. intros [e|m] [e'|m'] H; cbn in H; try contradiction; [apply sim_ret; exact H|subst; apply sim_throw]. Qed.
Lemma sim_next_ : sim alike_event next_ next_.
Proof. apply sim_next. intros [e|m] [e'|m'] H; cbn in H; try contradiction; [apply sim_ret; exact H|subst; apply sim_throw]. Qed.

(** ** A value inside of its element *)
(** The names of the two tags agree on both sides, as both documents are well
    formed. *)
Definition stays {A} (p : prog A) : Prop :=
  forall v st a v', at_ st v -> vrun p v = (OOk a, v') -> at_ st v'.

Lemma sim_inner : forall A (p q : prog A), stays p -> stays q -> sim eq p q ->
  sim eq (read_inner_value p) (read_inner_value q).
Proof.
  intros A p q Sp Sq H v w Hv. unfold read_inner_value. cbn [vrun].
  destruct (vnext_alike v w Hv) as (r & r' & v1 & w1 & N1 & N2 & Hr & Hv1). rewrite N1, N2.
  destruct r as [e|m], r' as [e'|m']; cbn [ralike] in Hr; try contradiction; [|split; [reflexivity|exact Hv1]].
  destruct e, e'; cbn [alike_event] in Hr; try discriminate Hr; try (split; [reflexivity|exact Hv1]).
  destruct Hr as [[Hln Hns] _].
  destruct Hv as (Hd & Hrr & Hf & (st & Ha) & (st' & Ha')).
  (* the open element on both sides *)
  assert (A1 : at_ (n :: st) v1).
  { unfold vnext in N1. destruct (v_rest v) as [|e r] eqn:Hrv; [destruct (v_fin v); discriminate|].
    destruct (next_at _ _ _ _ Ha Hrv) as (s1 & v1' & M & _ & A1 & Hs). unfold vnext in M. rewrite Hrv in M.
    rewrite M in N1. inversion N1; subst. rewrite <- Hs. exact A1. }
  assert (A2 : at_ (n0 :: st') w1).
  { unfold vnext in N2. destruct (v_rest w) as [|e r] eqn:Hrv; [destruct (v_fin w); discriminate|].
    destruct (next_at _ _ _ _ Ha' Hrv) as (s1 & v1' & M & _ & A2 & Hs). unfold vnext in M. rewrite Hrv in M.
    rewrite M in N2. inversion N2; subst. rewrite <- Hs. exact A2. }
  specialize (H v1 w1 Hv1). rewrite !vrun_bind.
  destruct (vrun p v1) as [[a|m|m|] v2] eqn:P1, (vrun q w1) as [[b|m'|m'|] w2] eqn:P2; try contradiction; try exact H.
  destruct H as [-> Hv2]. pose proof (Sp _ _ _ _ A1 P1) as B1. pose proof (Sq _ _ _ _ A2 P2) as B2.
  rewrite !vrun_bind. unfold expect_end_element, next_.
  cbn [bind vrun].
  destruct (vnext_alike v2 w2 Hv2) as (r & r' & v3 & w3 & N3 & N4 & Hr & Hv3). rewrite N3, N4.
  destruct r as [e|m], r' as [e'|m']; cbn [ralike] in Hr; try contradiction; [|subst m'; split; [reflexivity|exact Hv3]].
  cbn [of_res bind].
  destruct e, e'; cbn [alike_event] in Hr; try discriminate Hr; rewrite ?Hln; try (split; [reflexivity|exact Hv3]).
  assert (E1 : n1 = n).
  { unfold vnext in N3. destruct B1 as [_ B1]. destruct (v_rest v2) as [|e r] eqn:Hrv; [destruct (v_fin v2); discriminate|].
    destruct (bump (v_depth v2) e); [|discriminate]. inversion N3; subst e. cbn [ends_in] in B1. apply B1. }
  assert (E2 : n2 = n0).
  { unfold vnext in N4. destruct B2 as [_ B2]. destruct (v_rest w2) as [|e r] eqn:Hrv; [destruct (v_fin w2); discriminate|].
    destruct (bump (v_depth w2) e); [|discriminate]. inversion N4; subst e. cbn [ends_in] in B2. apply B2. }
  subst n1 n2. rewrite !name_eqb_same. cbn [vrun]. split; [reflexivity|exact Hv3].
Qed.

Lemma stays_of_res : forall A (r : res A), stays (of_res r).
Proof. intros A [a|m] v st b v' Ha H; cbn in H; inversion H; subst; exact Ha. Qed.

Lemma stays_text : forall A (f : string -> prog A) m0, (forall t, stays (f t)) ->
  stays (Peek (fun r => match r with Ok (EChars t) => next_ ;; f t | _ => Throw m0 end)).
Proof.
  intros A f m0 Hf v st a v' Ha H. cbn [vrun] in H.
  unfold vpeek in H. destruct (v_rest v) as [|e r] eqn:Hr; [destruct (v_fin v); discriminate|].
  destruct e; try discriminate. unfold next_ in H. cbn [bind vrun] in H.
  destruct (next_at _ _ _ _ Ha Hr) as (s1 & v1 & N & _ & A1 & [-> _]). rewrite N in H. cbn [of_res bind] in H.
  exact (Hf s v1 st a v' A1 H).
Qed.

(** ** The generated code *)
Section Alike.
  Variables (x : ext) (E : env) (rec : nat -> prog value) (fuel : nat).
  Hypothesis Hrec : forall id, sim eq (rec id) (rec id).

  Lemma sim_from_str_in : forall id s, sim eq (from_str_in rec id s) (from_str_in rec id s).
  Proof.
    intros id s. unfold from_str_in. destruct (fst (run _ _)); [apply sim_ret; reflexivity|apply sim_throw|apply sim_crash|apply sim_stuck].
  Qed.
  Lemma sim_visit_attr : forall b t, sim eq (visit_attr x E rec b t) (visit_attr x E rec b t).
  Proof.
    intros [s|id] t; cbn [visit_attr]; [apply sim_of_res|]. destruct (nth_error E id); [apply sim_from_str_in|apply sim_crash].
  Qed.
  Lemma sim_items : forall b i l ss, sim eq (visit_attr_items x E rec b i l ss) (visit_attr_items x E rec b i l ss).
  Proof.
    intros b i. induction l as [|t l IH]; intros ss; cbn [visit_attr_items]; [apply sim_ret; reflexivity|].
    eapply sim_bind; [apply sim_visit_attr|]. intros v v' <-. apply IH.
  Qed.

  (** What one field does with a value. *)
  Definition take (f : field) (i : nat) (t : string) (ss : list slot) : prog (list slot) :=
    match f_ty f with
    | TBase (BSimple SString) => Ret (upd i (put_slot (VStr t)) ss)
    | TVec b => visit_attr_items x E rec b i (split_ws t) ss
    | TBase b | TOpt b | TOptVec b => let* v := visit_attr x E rec b t in Ret (upd i (put_slot v) ss)
    end.
  Fixpoint take_all (f : field) (i : nat) (l : list string) (ss : list slot) : prog (list slot) :=
    match l with
    | [] => Ret ss
    | t :: r => let* ss' := take f i t ss in take_all f i r ss'
    end.
  Lemma load_attr_values : forall f i attrs ss v,
    vrun (load_attr x E rec f i attrs ss) v = vrun (take_all f i (values_of (field_local f) attrs) ss) v.
  Proof.
    intros f i. induction attrs as [|a r IH]; intros ss v; cbn [load_attr]; [reflexivity|].
    unfold values_of in *. cbn [filter]. destruct (String.eqb _ _); cbn [map take_all].
    - rewrite !vrun_bind. fold (take f i (at_value a) ss). destruct (vrun (take f i (at_value a) ss) v) as [[]]; auto.
    - cbn [bind]. apply IH.
  Qed.
  Lemma sim_take_all : forall f i l ss, sim eq (take_all f i l ss) (take_all f i l ss).
  Proof.
    intros f i. induction l as [|t l IH]; intros ss; cbn [take_all]; [apply sim_ret; reflexivity|].
    eapply sim_bind; [|intros a b <-; apply IH]. unfold take.
    destruct (f_ty f) as [[[]|]| | |]; try (apply sim_ret; reflexivity); try apply sim_items;
      (eapply sim_bind; [apply sim_visit_attr|intros v v' <-; apply sim_ret; reflexivity]).
  Qed.
  Lemma sim_load_attrs : forall fs i a a' ss, (forall l, values_of l a = values_of l a') ->
    sim eq (load_attrs x E rec fs i a ss) (load_attrs x E rec fs i a' ss).
  Proof.
    intros fs i a a' ss Ha. revert i ss. induction fs as [|f fs IH]; intros i ss; cbn [load_attrs]; [apply sim_ret; reflexivity|].
    eapply sim_bind; [|intros b b' <-; apply IH]. destruct (ya_attribute (f_attrs f)); [|apply sim_ret; reflexivity].
    intros v w Hv. rewrite !load_attr_values, Ha. apply sim_take_all. exact Hv.
  Qed.

  Lemma sim_arm_struct : forall i id d ss, sim eq (arm_struct rec i id d ss) (arm_struct rec i id d ss).
  Proof.
    intros i id d ss. unfold arm_struct.
    assert (H : forall r r', ralike r r' -> sim eq match r with
        | Ok (EStart _ _ _) => let* v := rec id in next_ ;; Ret (upd i (put_slot v) ss) | _ => Ret ss end
      match r' with
        | Ok (EStart _ _ _) => let* v := rec id in next_ ;; Ret (upd i (put_slot v) ss) | _ => Ret ss end).
    { intros [e|m] [e'|m'] Hr; cbn [ralike] in Hr; try contradiction; [|apply sim_ret; reflexivity].
      destruct e, e'; cbn [alike_event] in Hr; try discriminate Hr; try (apply sim_ret; reflexivity).
      eapply sim_bind; [apply Hrec|]. intros v v' <-. eapply sim_bind; [apply sim_next_|]. intros ? ? _. apply sim_ret; reflexivity. }
    destruct (Z.eqb d 0); [apply sim_next; intros _ _ _|]; apply sim_peek; exact H.
  Qed.

  Lemma sim_arm_simple : forall ra i f s n n' ss, same_expanded n n' ->
    sim eq (arm_simple x ra i f s n ss) (arm_simple x ra i f s n' ss).
  Proof.
    intros ra i f s n n' ss [Hl Hn]. unfold arm_simple. rewrite Hl, Hn.
    destruct (namespace_check _ _ _ _); [apply sim_throw|].
    eapply sim_bind.
    - apply sim_attempt. apply sim_inner; [apply stays_text; intros; apply stays_of_res|apply stays_text; intros; apply stays_of_res|].
      apply sim_peek. intros [e|m] [e'|m'] Hr; cbn [ralike] in Hr; try contradiction; [|apply sim_throw].
      destruct e, e'; cbn [alike_event] in Hr; try discriminate Hr; try apply sim_throw.
      inversion Hr; subst. eapply sim_bind; [apply sim_next_|]. intros ? ? _. apply sim_of_res.
    - intros [v|m] [v'|m'] H; try contradiction; subst; apply sim_ret; reflexivity.
  Qed.

  Lemma sim_skip_loop : forall f d, sim eq (skip_loop f d write_unused UOff) (skip_loop f d write_unused UOff).
  Proof.
    induction f as [|f IH]; intros d; cbn [skip_loop]; [apply sim_stuck|]. apply sim_depth. intros cur.
    destruct (Nat.leb d cur); [|apply sim_ret; reflexivity]. eapply sim_bind; [apply sim_next_|]. intros ? ? _. apply IH.
  Qed.

  (** There is no writer for flattened fields. *)
  Definition off (st : lstate) : Prop := l_unused st = UOff.

  Lemma skip_off : forall f d v u v', vrun (skip_loop f d write_unused UOff) v = (OOk u, v') -> u = UOff.
  Proof.
    induction f as [|f IH]; intros d v u v' H; cbn [skip_loop vrun] in H; [discriminate|].
    destruct (Nat.leb d (v_depth v)); [|inversion H; reflexivity]. apply bind_ok in H. destruct H as (e & v1 & _ & H).
    cbn [write_unused bind] in H. eapply IH. exact H.
  Qed.

  Definition eqoff (a b : lstate) : Prop := a = b /\ off a.

  Lemma sim_struct_loop : forall td fs ln sd fl st, off st ->
    sim eqoff (struct_loop x E rec fuel fl td fs ln sd st) (struct_loop x E rec fuel fl td fs ln sd st).
  Proof.
    intros td fs ln sd. induction fl as [|fl IH]; intros st Hoff; [apply sim_stuck|]. cbn [struct_loop].
    destruct st as [ss u dd]. unfold off in Hoff. cbn [l_unused l_slots l_depth] in *. subst u.
    eapply sim_bind; [apply sim_peek_|]. intros e e' He.
    destruct e, e'; cbn [alike_event] in He; try discriminate He; try apply sim_throw.
    - destruct (ya_flatten _); [apply sim_ret; split; reflexivity|apply IH; reflexivity].
    - destruct He as [[Hl Hn] Ha]. rewrite <- Hl, <- Hn.
      eapply (sim_bind _ _ _ _ eqoff).
      + destruct (_ && _)%bool.
        * eapply sim_bind; [apply sim_next_|]. intros ? ? _. cbn [write_unused bind]. apply sim_ret; split; reflexivity.
        * destruct (find_field _ _ _ _ _) as [[i f]|].
          -- eapply sim_bind; [|intros s2 s2' <-; apply sim_ret; split; reflexivity].
             destruct (fbase (f_ty f)); [apply sim_arm_simple; split; assumption|apply sim_arm_struct].
          -- eapply sim_bind; [apply sim_next_|]. intros ? ? _. cbn [write_unused bind].
             eapply (sim_bind _ _ _ _ (fun a b => a = b /\ a = UOff)).
             ++ destruct (Z.ltb _ _); [|apply sim_ret; split; reflexivity].
                unfold skip_element. apply sim_depth. intros d v w Hv. pose proof (sim_skip_loop fuel d v w Hv) as H.
                destruct (vrun (skip_loop fuel d write_unused UOff) v) as [[a1|m1|m1|] v'] eqn:H1; destruct (vrun (skip_loop fuel d write_unused UOff) w) as [[b1|m2|m2|] w']; try exact H.
                destruct H as [-> H]. split; [|exact H]. split; [reflexivity|]. eapply skip_off. exact H1.
             ++ intros u u' [-> ->]. apply sim_ret; split; reflexivity.
      + intros st1 st1' [<- Ho]. eapply (sim_bind _ _ _ _ eq).
        * destruct (Z.eqb _ _); [apply sim_load_attrs; exact Ha|apply sim_ret; reflexivity].
        * intros s3 s3' <-. apply IH. exact Ho.
    - destruct He as [Hl Hn]. rewrite <- Hl. apply sim_depth. intros d. destruct (_ && _)%bool; cbn [write_unused bind].
      + apply sim_ret. split; reflexivity.
      + eapply sim_bind; [apply sim_next_|]. intros ? ? _. apply IH. reflexivity.
    - inversion He; subst. eapply sim_bind; [apply sim_next_|]. intros ? ? _. cbn [write_unused bind]. apply IH. reflexivity.
  Qed.

  Lemma sim_de_struct : forall td fs, has_flatten fs = false ->
    sim eq (de_struct x E rec fuel td fs) (de_struct x E rec fuel td fs).
  Proof.
    intros td fs Hf. unfold de_struct, init_unused. rewrite Hf. eapply sim_bind; [apply sim_peek_|]. intros e e' He.
    assert (Hp : match e with EStart n _ _ => (n_local n, n_ns n) | _ => (de_root td, None) end =
                 match e' with EStart n _ _ => (n_local n, n_ns n) | _ => (de_root td, None) end).
    { destruct e, e'; cbn [alike_event] in He; try discriminate He; try reflexivity. destruct He as [[-> ->] _]. reflexivity. }
    rewrite <- Hp. destruct (match e with EStart _ _ _ => _ | _ => _ end) as [ln sns].
    apply sim_depth. intros sd. destruct (if Nat.eqb sd 0 then _ else _); [apply sim_throw|].
    eapply (sim_bind _ _ _ _ eqoff); [apply sim_struct_loop; reflexivity|]. intros st st' [<- Ho]. unfold visit_unused. rewrite Ho.
    cbn [bind]. eapply sim_bind; [apply sim_of_res|]. intros vs vs' <-. apply sim_ret. reflexivity.
  Qed.

  (** ** Enums *)
  Lemma sim_payload : forall s, sim eq (read_payload x s) (read_payload x s).
  Proof.
    intros s. unfold read_payload.
    match goal with |- sim eq (attempt (read_inner_value ?q)) _ => set (p := q) end.
    assert (Hs : stays p).
    { intros v st a v' Ha H. unfold p in H. rewrite vrun_peek_ in H. destruct (vpeek v) as [e|m] eqn:Hp; [|discriminate].
      assert (Hu : forall t w o w', vrun (visit_unwrap x s t) w = (OOk o, w') -> w' = w).
      { intros t w o w' Hx. unfold visit_unwrap in Hx. destruct (parse_simple x s t); inversion Hx. reflexivity. }
      assert (Hn : forall w, at_ st w -> forall b w', vrun (Next (fun r => match r with Ok (EChars t) => visit_unwrap x s t
         | _ => Throw "unable to parse content for field_0" end)) w = (OOk b, w') -> at_ st w').
      { intros w Hw b w' Hx. cbn [vrun] in Hx. destruct (v_rest w) as [|e1 r1] eqn:Hr.
        - unfold vnext in Hx. rewrite Hr in Hx. destruct (v_fin w); discriminate.
        - destruct (next_at _ _ _ _ Hw Hr) as (s1 & w1 & N & _ & A1 & Hst). rewrite N in Hx. destruct e1; try discriminate.
          destruct Hst as [-> _]. apply Hu in Hx. subst. exact A1. }
      destruct e; try (eapply Hn; [exact Ha|exact H]). apply Hu in H. subst. exact Ha. }
    assert (Hv : forall t, sim eq (visit_unwrap x s t) (visit_unwrap x s t)).
    { intros t. unfold visit_unwrap. destruct (parse_simple x s t); [apply sim_ret; reflexivity|apply sim_crash]. }
    assert (H : sim eq (attempt (read_inner_value p)) (attempt (read_inner_value p))).
    2:exact H.
    intros v w Hvw. assert (Hi : sim eq (read_inner_value p) (read_inner_value p)).
    { apply sim_inner; [exact Hs|exact Hs|]. unfold p. eapply sim_bind; [apply sim_peek_|]. intros e e' He.
      assert (Hn : sim eq (Next (fun r => match r with Ok (EChars t) => visit_unwrap x s t
         | _ => Throw "unable to parse content for field_0" end)) (Next (fun r => match r with Ok (EChars t) => visit_unwrap x s t
         | _ => Throw "unable to parse content for field_0" end))).
      { apply sim_next. intros [e1|m1] [e1'|m1'] Hr; cbn [ralike] in Hr; try contradiction; [|apply sim_throw].
        destruct e1, e1'; cbn [alike_event] in Hr; try discriminate Hr; try apply sim_throw. inversion Hr; subst. apply Hv. }
      destruct e, e'; cbn [alike_event] in He; try discriminate He; try exact Hn. apply Hv. }
    pose proof (sim_attempt _ _ _ _ _ Hi v w Hvw) as Hx.
    destruct (vrun (attempt (read_inner_value p)) v) as [[a|m|m|] v'], (vrun (attempt (read_inner_value p)) w) as [[b|m'|m'|] w']; try exact Hx.
    destruct Hx as [Hx Hy]. split; [|exact Hy]. destruct a, b; try contradiction; congruence.
  Qed.

  Lemma sim_set_payload : forall t i v cur, sim eq (set_payload t i v cur) (set_payload t i v cur).
  Proof.
    intros t i v cur. assert (H : forall A (p : prog A), (exists a, p = Ret a) \/ (exists m, p = Throw m) -> sim eq p p).
    { intros A p [[a ->]|[m ->]]; [apply sim_ret; reflexivity|apply sim_throw]. }
    apply H. unfold set_payload. destruct t; eauto. destruct cur as [[]|]; eauto.
    repeat match goal with |- context [match ?l with _ => _ end] => destruct l end; eauto.
  Qed.

  Lemma sim_enum_arm : forall i b cur, sim eq (enum_arm x rec i b cur) (enum_arm x rec i b cur).
  Proof.
    intros i [|fl t|fs] cur; cbn [enum_arm]; try (apply sim_ret; reflexivity). destruct (fbase t).
    - eapply sim_bind; [apply sim_payload|]. intros r r' <-. destruct r; [|apply sim_ret; reflexivity].
      eapply sim_bind; [apply sim_set_payload|]. intros c c' <-. apply sim_ret; reflexivity.
    - eapply sim_bind; [apply Hrec|]. intros v v' <-. eapply sim_bind; [apply sim_set_payload|]. intros c c' <-.
      apply sim_next. intros ? ? _. apply sim_ret; reflexivity.
  Qed.

  Lemma tag_alike : forall tag n n' a a', same_expanded n n' -> (forall l, values_of l a = values_of l a') ->
    enum_element_name tag n a = enum_element_name tag n' a'.
  Proof.
    intros [t|] n n' a a' [Hl _] Ha; cbn [enum_element_name]; [|congruence].
    assert (H : forall l, match find (fun b => String.eqb (n_local (at_name b)) t) l with Some b => Ok (at_value b) | None => Er ("Expected enum tagged with " +++ t) end =
      match values_of t l with [] => Er ("Expected enum tagged with " +++ t) | y :: _ => Ok y end).
    { induction l as [|b l IH]; [reflexivity|]. unfold values_of in *. cbn [find filter]. destruct (String.eqb _ _); [reflexivity|exact IH]. }
    rewrite !H, Ha. reflexivity.
  Qed.

  Lemma sim_enum_loop : forall td vs ln sd fl cur,
    sim eq (enum_loop x rec fl td vs ln sd cur) (enum_loop x rec fl td vs ln sd cur).
  Proof.
    intros td vs ln sd. induction fl as [|fl IH]; intros cur; [apply sim_stuck|]. cbn [enum_loop].
    eapply sim_bind; [apply sim_peek_|]. intros e e' He.
    destruct e, e'; cbn [alike_event] in He; try discriminate He; try apply sim_throw.
    - destruct (ya_flatten _); [apply sim_ret; reflexivity|apply sim_throw].
    - destruct He as [Hn Ha]. rewrite (tag_alike _ _ _ _ _ Hn Ha). eapply sim_bind; [apply sim_of_res|]. intros nm nm' <-.
      eapply (sim_bind _ _ _ _ eq).
      { destruct (find_variant vs 0 nm) as [[i b]|]; [apply sim_enum_arm|]. apply sim_next. intros ? ? _. apply sim_ret; reflexivity. }
      intros [cur1 brk] c2 <-. destruct brk; [apply sim_ret; reflexivity|].
      eapply sim_bind; [apply sim_peek_|]. intros e e' He.
      destruct e, e'; cbn [alike_event] in He; try discriminate He; try apply IH.
      inversion He; subst. eapply (sim_bind _ _ _ _ eq).
      { destruct (find_variant vs 0 _) as [[i b]|]; [apply sim_enum_arm|apply sim_ret; reflexivity]. }
      intros [cur2 brk2] c3 <-. destruct brk2; [apply sim_ret; reflexivity|apply IH].
    - destruct He as [Hl Hn]. rewrite <- Hl. apply sim_depth. intros d. destruct (_ && _)%bool; [apply sim_ret; reflexivity|].
      apply sim_next. intros ? ? _. apply IH.
    - apply sim_next. intros ? ? _. apply IH.
  Qed.

  Lemma sim_de_enum : forall td vs d, sim eq (de_enum x rec fuel td vs d) (de_enum x rec fuel td vs d).
  Proof.
    intros td vs d. unfold de_enum. eapply sim_bind; [apply sim_peek_|]. intros e e' He.
    assert (Hp : match e with EStart n _ _ => (n_local n, n_ns n) | _ => (de_root td, None) end =
                 match e' with EStart n _ _ => (n_local n, n_ns n) | _ => (de_root td, None) end).
    { destruct e, e'; cbn [alike_event] in He; try discriminate He; try reflexivity. destruct He as [[-> ->] _]. reflexivity. }
    rewrite <- Hp. destruct (match e with EStart _ _ _ => _ | _ => _ end) as [ln sns].
    apply sim_depth. intros sd. destruct (namespace_check _ _ _ _); [apply sim_throw|].
    eapply sim_bind; [apply sim_enum_loop|]. intros o o' <-. apply sim_ret. reflexivity.
  Qed.

  Lemma sim_de_prim : forall td k, sim eq (de_prim x td k) (de_prim x td k).
  Proof.
    intros td k. unfold de_prim. apply sim_peek. intros [e|m] [e'|m'] Hr; cbn [ralike] in Hr; try contradiction; [|apply sim_throw].
    destruct e, e'; cbn [alike_event] in Hr; try discriminate Hr; try apply sim_throw.
    eapply sim_bind; [apply sim_next_|]. intros ? ? _. apply sim_peek. intros [e|m] [e'|m'] H2; cbn [ralike] in H2; try contradiction; [|apply sim_of_res].
    destruct e, e'; cbn [alike_event] in H2; try discriminate H2; try apply sim_of_res. inversion H2; subst. apply sim_of_res.
  Qed.

  Lemma sim_de_body : unflattened E -> forall id, sim eq (de_body x E rec fuel id) (de_body x E rec fuel id).
  Proof.
    intros HE id. unfold de_body. destruct (nth_error E id) as [td|] eqn:Htd; [|apply sim_crash].
    destruct (t_body td) eqn:Hb; [apply sim_de_struct|apply sim_de_enum|apply sim_de_prim].
    apply nth_error_In in Htd. specialize (HE td fs Htd Hb). exact HE.
  Qed.
End Alike.

Theorem sim_de : forall x E, unflattened E -> forall fuel id, sim eq (de x E fuel id) (de x E fuel id).
Proof.
  intros x E HE. induction fuel as [|fuel IH]; intros id; cbn [de]; [apply sim_stuck|]. apply sim_de_body; assumption.
Qed.

Theorem alike_events : forall x E fuel id s s', unflattened E -> parsed_source s -> parsed_source s' -> alike_source s s' ->
  from_events x E fuel id s = from_events x E fuel id s'.
Proof.
  intros x E fuel id s s' HE Hs Hs' [Hm Hf]. unfold from_events. rewrite !(proj1 (run_view _ _ _)).
  assert (Hv : forall t, v_rest (view (d_init t)) = markup t).
  { intros t. unfold view, d_init, markup, vis. cbn [d_peeked d_src app v_rest]. apply filter_ext. intros []; reflexivity. }
  assert (H : vsim (view (d_init s)) (view (d_init s'))).
  { split; [reflexivity|]. split; [rewrite !Hv; exact Hm|]. split; [exact Hf|].
    split; [exists []; apply parsed_view; exact Hs|exists []; apply parsed_view; exact Hs']. }
  pose proof (sim_de x E HE fuel id _ _ H) as Hx.
  destruct (vrun _ (view (d_init s))) as [[a|m|m|] v'], (vrun _ (view (d_init s'))) as [[b|m'|m'|] w']; cbn [fst]; try contradiction.
  - destruct Hx as [-> _]. reflexivity.
  - destruct Hx as [-> _]. reflexivity.
  - rewrite Hx. reflexivity.
  - reflexivity.
Qed.

Theorem alike_texts : forall x E fuel id s s', unflattened E -> alike_source (parse_text s) (parse_text s') ->
  from_str x E fuel id s = from_str x E fuel id s'.
Proof. intros. apply alike_events; auto using parse_parsed. Qed.

(** ** Attributes in another order *)
Lemma values_perm : forall a a', Permutation (map attr_key a) (map attr_key a') ->
  NoDup (map (fun b => n_local (at_name b)) a) -> forall l, values_of l a = values_of l a'.
Proof.
  intros a a' Hp Hn l.
  (* the values by keys *)
  assert (Hk : forall b, values_of l b = map snd (filter (fun k => String.eqb (fst (fst k)) l) (map attr_key b))).
  { induction b as [|y b IH]; [reflexivity|]. unfold values_of in *. cbn [map filter attr_key fst].
    destruct (String.eqb (n_local (at_name y)) l); cbn [map]; [f_equal|]; exact IH. }
  rewrite !Hk. assert (Hl : map (fun b => n_local (at_name b)) a = map (fun k => fst (fst k)) (map attr_key a)).
  { rewrite map_map. apply map_ext. reflexivity. }
  rewrite Hl in Hn. clear Hl Hk. revert Hn Hp. generalize (map attr_key a) (map attr_key a'). clear a a'. intros a a' Hn Hp.
  induction Hp as [|k a a' Hp IH|k1 k2 a|a b c H1 IH1 H2 IH2].
  - reflexivity.
  - cbn [filter map] in *. inversion Hn; subst. destruct (String.eqb _ _); cbn [map]; [f_equal|]; auto.
  - cbn [filter map] in *. inversion Hn as [|? ? Hni _]; subst. destruct (String.eqb (fst (fst k1)) l) eqn:E1, (String.eqb (fst (fst k2)) l) eqn:E2; try reflexivity.
    exfalso. apply String.eqb_eq in E1. apply String.eqb_eq in E2. apply Hni. left. congruence.
  - rewrite IH1 by exact Hn. apply IH2. eapply Permutation_NoDup; [|exact Hn]. apply Permutation_map. exact H1.
Qed.

Lemma same_alike : forall e e', same_event e e' -> distinct_locals e -> alike_event e e'.
Proof.
  intros e e' H Hd. destruct e, e'; cbn [same_event alike_event distinct_locals] in *; try assumption.
  destruct H as [H1 H2]. split; [exact H1|]. apply values_perm; assumption.
Qed.

Theorem same_texts : forall x E fuel id s s', unflattened E -> same_document (parse_text s) (parse_text s') ->
  Forall distinct_locals (markup (parse_text s)) ->
  from_str x E fuel id s = from_str x E fuel id s'.
Proof.
  intros x E fuel id s s' HE [Hm Hf] Hd. apply alike_texts; [exact HE|]. split; [|exact Hf].
  induction Hm as [|e e' l l' H Hm IH]; [constructor|]. inversion Hd; subst. constructor; [apply same_alike; assumption|auto].
Qed.
