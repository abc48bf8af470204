(** * More fuel does not change a finished run. *)
From Verif Require Import Str Num Xml XmlText Reader Schema De.
Open Scope list_scope.

(** [leq p q]: [q] does what [p] does, except where [p] is out of fuel. *)
Inductive leq {A} : prog A -> prog A -> Prop :=
| leq_stuck : forall q, leq Stuck q
| leq_ret : forall a, leq (Ret a) (Ret a)
| leq_throw : forall m, leq (Throw m) (Throw m)
| leq_crash : forall m, leq (Crash m) (Crash m)
| leq_peek : forall k k', (forall r, leq (k r) (k' r)) -> leq (Peek k) (Peek k')
| leq_next : forall k k', (forall r, leq (k r) (k' r)) -> leq (Next k) (Next k')
| leq_depth : forall k k', (forall r, leq (k r) (k' r)) -> leq (Depth k) (Depth k').

Lemma leq_refl : forall A (p : prog A), leq p p.
Proof. induction p; constructor; auto. Qed.
Lemma leq_bind : forall A B (p q : prog A) (f g : A -> prog B), leq p q -> (forall a, leq (f a) (g a)) -> leq (bind p f) (bind q g).
Proof. intros A B p q f g H Hf. induction H; cbn [bind]; try constructor; auto. Qed.
Lemma leq_attempt : forall A (p q : prog A), leq p q -> leq (attempt p) (attempt q).
Proof. intros A p q H. induction H; cbn [attempt]; constructor; auto. Qed.

Lemma leq_run : forall A (p q : prog A), leq p q -> forall st, fst (run p st) <> OFuel -> run q st = run p st.
Proof.
  intros A p q H. induction H; intros st Hf; cbn [run] in *; try reflexivity; try (exfalso; apply Hf; reflexivity).
  - destruct (peek st) as [r st']. apply H0. exact Hf.
  - destruct (next_event st) as [[r|] st']; [apply H0; exact Hf|reflexivity].
  - apply H0. exact Hf.
Qed.

Create HintDb leq.
#[local] Hint Resolve leq_refl leq_stuck leq_bind leq_attempt leq_peek leq_next leq_depth : leq.

Lemma leq_inner : forall A (p q : prog A), leq p q -> leq (read_inner_value p) (read_inner_value q).
Proof.
  intros A p q H. unfold read_inner_value. apply leq_next. intros [[]|m]; try apply leq_refl. apply leq_bind; [exact H|]. intros a. apply leq_refl.
Qed.
Lemma leq_skip_loop : forall S (cb : S -> event -> prog S) f f' d s, f <= f' -> leq (skip_loop f d cb s) (skip_loop f' d cb s).
Proof.
  intros S cb. induction f as [|f IH]; intros [|f'] d s Hf; try lia; cbn [skip_loop]; [constructor..|].
  apply leq_depth. intros cur. destruct (Nat.leb d cur); [|apply leq_refl]. apply leq_bind; [apply leq_refl|]. intros e.
  apply leq_bind; [apply leq_refl|]. intros s'. apply IH. lia.
Qed.
Lemma leq_skip : forall S (cb : S -> event -> prog S) f f' s, f <= f' -> leq (skip_element f cb s) (skip_element f' cb s).
Proof. intros. unfold skip_element. apply leq_depth. intros d. apply leq_skip_loop. assumption. Qed.

Section More.
  Variable x : ext.
  Variable E : env.
  Variable rec rec' : nat -> prog value.
  Variable fuel fuel' : nat.
  Hypothesis Hrec : forall id, leq (rec id) (rec' id).
  Hypothesis Hfuel : fuel <= fuel'.

  Lemma leq_from_str_in : forall id s, leq (from_str_in rec id s) (from_str_in rec' id s).
  Proof.
    intros id s. unfold from_str_in. pose proof (leq_run _ _ _ (Hrec id) (d_init (parse_text s))) as H.
    destruct (fst (run (rec id) (d_init (parse_text s)))) eqn:Ho; try (rewrite H by discriminate; rewrite Ho; apply leq_refl). constructor.
  Qed.
  Lemma leq_visit_attr : forall b t, leq (visit_attr x E rec b t) (visit_attr x E rec' b t).
  Proof.
    intros [s|id] t; cbn [visit_attr]; [apply leq_refl|]. destruct (nth_error E id); [apply leq_from_str_in|apply leq_refl].
  Qed.
  Lemma leq_items : forall b i l ss, leq (visit_attr_items x E rec b i l ss) (visit_attr_items x E rec' b i l ss).
  Proof.
    intros b i. induction l as [|t l IH]; intros ss; cbn [visit_attr_items]; [apply leq_refl|].
    apply leq_bind; [apply leq_visit_attr|]. intros v. apply IH.
  Qed.
  Lemma leq_load_attr : forall f i attrs ss, leq (load_attr x E rec f i attrs ss) (load_attr x E rec' f i attrs ss).
  Proof.
    intros f i. induction attrs as [|a l IH]; intros ss; cbn [load_attr]; [apply leq_refl|].
    apply leq_bind; [|intros ss'; apply IH]. destruct (String.eqb _ _); [|apply leq_refl].
    destruct (f_ty f) as [[[]|]| | |]; try apply leq_refl; try apply leq_items;
      (apply leq_bind; [apply leq_visit_attr|intros v; apply leq_refl]).
  Qed.
  Lemma leq_load_attrs : forall fs i attrs ss, leq (load_attrs x E rec fs i attrs ss) (load_attrs x E rec' fs i attrs ss).
  Proof.
    induction fs as [|f fs IH]; intros i attrs ss; cbn [load_attrs]; [apply leq_refl|].
    apply leq_bind; [|intros ss'; apply IH]. destruct (ya_attribute (f_attrs f)); [apply leq_load_attr|apply leq_refl].
  Qed.
  Lemma leq_arm_struct : forall i id d ss, leq (arm_struct rec i id d ss) (arm_struct rec' i id d ss).
  Proof.
    intros i id d ss. unfold arm_struct.
    assert (H : forall r, leq match r with
        | Ok (EStart _ _ _) => let* v := rec id in next_ ;; Ret (upd i (put_slot v) ss) | _ => Ret ss end
      match r with
        | Ok (EStart _ _ _) => let* v := rec' id in next_ ;; Ret (upd i (put_slot v) ss) | _ => Ret ss end).
    { intros [[]|m]; try apply leq_refl. apply leq_bind; [apply Hrec|]. intros v. apply leq_refl. }
    destruct (Z.eqb d 0); [apply leq_next; intros _|]; apply leq_peek; exact H.
  Qed.

  Lemma leq_struct_loop : forall td fs ln sd fl fl' st, fl <= fl' ->
    leq (struct_loop x E rec fuel fl td fs ln sd st) (struct_loop x E rec' fuel' fl' td fs ln sd st).
  Proof.
    intros td fs ln sd. induction fl as [|fl IH]; intros [|fl'] st Hf; try lia; [constructor..|]. cbn [struct_loop].
    assert (IH' : forall st, leq (struct_loop x E rec fuel fl td fs ln sd st) (struct_loop x E rec' fuel' fl' td fs ln sd st)) by (intros; apply IH; lia).
    apply leq_bind; [apply leq_refl|]. intros [| |pt|n a m|n|t|t|t|t]; try apply leq_refl.
    - destruct (ya_flatten _); [apply leq_refl|apply IH'].
    - apply leq_bind.
      + destruct (_ && _)%bool; [apply leq_refl|]. destruct (find_field _ _ _ _ _) as [[i f]|].
        * apply leq_bind; [|intros; apply leq_refl]. destruct (fbase (f_ty f)); [apply leq_refl|apply leq_arm_struct].
        * apply leq_bind; [apply leq_refl|]. intros ev. apply leq_bind; [apply leq_refl|]. intros u.
          apply leq_bind; [|intros; apply leq_refl]. destruct (Z.ltb _ _); [apply leq_skip; exact Hfuel|apply leq_refl].
      + intros st1. apply leq_bind; [|intros ss; apply IH']. destruct (Z.eqb _ _); [apply leq_load_attrs|apply leq_refl].
    - apply leq_depth. intros d. destruct (_ && _)%bool; [apply leq_refl|].
      apply leq_bind; [apply leq_refl|]. intros ev. apply leq_bind; [apply leq_refl|]. intros u. apply IH'.
    - apply leq_bind; [apply leq_refl|]. intros ev. apply leq_bind; [apply leq_refl|]. intros u. apply IH'.
  Qed.

  Lemma leq_visit_flatten : forall fs i t ss, leq (visit_flatten rec fs i t ss) (visit_flatten rec' fs i t ss).
  Proof.
    induction fs as [|f fs IH]; intros i t ss; cbn [visit_flatten]; [apply leq_refl|].
    apply leq_bind; [|intros; apply IH]. destruct (_ && _)%bool; [|apply leq_refl].
    destruct (f_ty f) as [[|]|[|]|b|b]; try apply leq_refl;
      (apply leq_bind; [try apply leq_attempt; apply leq_from_str_in|intros; apply leq_refl]).
  Qed.

  Lemma leq_de_struct : forall td fs, leq (de_struct x E rec fuel td fs) (de_struct x E rec' fuel' td fs).
  Proof.
    intros td fs. unfold de_struct. apply leq_bind; [apply leq_refl|]. intros e.
    destruct (match e with EStart n _ _ => (n_local n, n_ns n) | _ => (de_root td, None) end) as [ln sns].
    apply leq_depth. intros sd. destruct (if Nat.eqb sd 0 then _ else _); [apply leq_refl|].
    apply leq_bind; [apply leq_struct_loop; exact Hfuel|]. intros st. apply leq_bind; [|intros; apply leq_refl].
    unfold visit_unused. destruct (l_unused st); try apply leq_refl. apply leq_visit_flatten.
  Qed.

  Lemma leq_enum_arm : forall i b cur, leq (enum_arm x rec i b cur) (enum_arm x rec' i b cur).
  Proof.
    intros i [|fl t|fs] cur; cbn [enum_arm]; try apply leq_refl. destruct (fbase t); [apply leq_refl|].
    apply leq_bind; [apply Hrec|]. intros v. apply leq_refl.
  Qed.
  Lemma leq_enum_loop : forall td vs ln sd fl fl' cur, fl <= fl' ->
    leq (enum_loop x rec fl td vs ln sd cur) (enum_loop x rec' fl' td vs ln sd cur).
  Proof.
    intros td vs ln sd. induction fl as [|fl IH]; intros [|fl'] cur Hf; try lia; [constructor..|]. cbn [enum_loop].
    assert (IH' : forall cur, leq (enum_loop x rec fl td vs ln sd cur) (enum_loop x rec' fl' td vs ln sd cur)) by (intros; apply IH; lia).
    apply leq_bind; [apply leq_refl|]. intros [| |pt|n a m|n|t|t|t|t]; try apply leq_refl.
    - apply leq_bind; [apply leq_refl|]. intros nm. apply leq_bind.
      { destruct (find_variant vs 0 nm) as [[i b]|]; [apply leq_enum_arm|apply leq_refl]. }
      intros [cur1 brk]. destruct brk; [apply leq_refl|]. apply leq_bind; [apply leq_refl|]. intros [| |p2|n2 a2 m2|n2|t2|t2|t2|t2]; try apply IH'.
      apply leq_bind.
      { destruct (find_variant vs 0 _) as [[i b]|]; [apply leq_enum_arm|apply leq_refl]. }
      intros [cur2 brk2]. destruct brk2; [apply leq_refl|apply IH'].
    - apply leq_depth. intros d. destruct (_ && _)%bool; [apply leq_refl|]. apply leq_next. intros _. apply IH'.
    - apply leq_next. intros _. apply IH'.
  Qed.
  Lemma leq_de_enum : forall td vs d, leq (de_enum x rec fuel td vs d) (de_enum x rec' fuel' td vs d).
  Proof.
    intros td vs d. unfold de_enum. apply leq_bind; [apply leq_refl|]. intros e.
    destruct (match e with EStart n _ _ => (n_local n, n_ns n) | _ => (de_root td, None) end) as [ln ens].
    apply leq_depth. intros sd. destruct (namespace_check _ _ _ _); [apply leq_refl|].
    apply leq_bind; [apply leq_enum_loop; exact Hfuel|]. intros o. apply leq_refl.
  Qed.
  Lemma leq_de_body : forall id, leq (de_body x E rec fuel id) (de_body x E rec' fuel' id).
  Proof.
    intros id. unfold de_body. destruct (nth_error E id) as [td|]; [|apply leq_refl].
    destruct (t_body td); [apply leq_de_struct|apply leq_de_enum|apply leq_refl].
  Qed.
End More.

Theorem leq_de : forall x E f f' id, f <= f' -> leq (de x E f id) (de x E f' id).
Proof.
  intros x E. induction f as [|f IH]; intros [|f'] id Hf; try lia; cbn [de]; [constructor..|].
  apply leq_de_body; [|lia]. intros id'. apply IH. lia.
Qed.

Theorem fuel_more : forall x E id s f f', f <= f' -> from_events x E f id s <> OFuel -> from_events x E f' id s = from_events x E f id s.
Proof. intros x E id s f f' Hf H. unfold from_events in *. f_equal. apply leq_run; [apply leq_de; exact Hf|exact H]. Qed.
Theorem fuel_unique : forall x E id s f f', from_events x E f id s <> OFuel -> from_events x E f' id s <> OFuel ->
  from_events x E f id s = from_events x E f' id s.
Proof.
  intros x E id s f f' H H'. destruct (Nat.le_gt_cases f f') as [Hl|Hl].
  - symmetry. apply fuel_more; assumption.
  - apply fuel_more; [lia|assumption].
Qed.
