(** * Facts about running client programs.

    [vrun] is a simplified semantics over the list of *visible* events still
    to be read; [run] is shown to agree with it.  Most later proofs use
    [vrun]. *)
From Verif Require Import Str Xml XmlText Reader.

Definition visible (e : event) : bool := negb (invisible e).
Definition vis (l : list event) : list event := filter visible l.

(** What is still to come: depth, visible events, final result. *)
Record vstate := VState { v_depth : nat; v_rest : list event; v_fin : fin }.

Definition view (st : dstate) : vstate :=
  VState (d_depth st)
         (match d_peeked st with Some e => [e] | None => [] end ++ vis (s_evs (d_src st)))
         (s_fin (d_src st)).

Definition fin_res (f : fin) : res event :=
  match f with FEnd => Ok EEndDoc | FErr m => Er m end.

Definition vpeek (v : vstate) : res event :=
  match v_rest v with [] => fin_res (v_fin v) | e :: _ => Ok e end.

Definition vnext (v : vstate) : option (res event) * vstate :=
  match v_rest v with
  | [] => (Some (fin_res (v_fin v)), v)
  | e :: r =>
      match bump (v_depth v) e with
      | Some d => (Some (Ok e), VState d r (v_fin v))
      | None => (None, VState (v_depth v) r (v_fin v))
      end
  end.

Fixpoint vrun {A} (p : prog A) (v : vstate) : outcome A * vstate :=
  match p with
  | Ret a => (OOk a, v)
  | Throw m => (OErr m, v)
  | Crash m => (OPanic m, v)
  | Stuck => (OFuel, v)
  | Peek k => vrun (k (vpeek v)) v
  | Next k =>
      match vnext v with
      | (Some r, v') => vrun (k r) v'
      | (None, v') => (OPanic "attempt to subtract with overflow", v')
      end
  | Depth k => vrun (k (v_depth v)) v
  end.

Lemma inner_next_vis : forall l f,
  match inner_next_evs l f with
  | (Ok e, r) => (vis l = e :: vis r) \/ (vis l = [] /\ vis r = [] /\ f = FEnd /\ e = EEndDoc)
  | (Er m, r) => vis l = [] /\ r = [] /\ f = FErr m
  end.
Proof.
  induction l as [|e l IH]; intros f; simpl.
  - destruct f; [right|]; auto.
  - unfold visible. destruct (invisible e) eqn:He; simpl.
    + apply IH.
    + left; reflexivity.
Qed.

Lemma peek_view : forall st r st',
  peek st = (r, st') -> r = vpeek (view st) /\
  (view st' = view st \/ (view st' = VState (d_depth st) [EEndDoc] FEnd /\ v_rest (view st) = [] /\ v_fin (view st) = FEnd)).
Proof.
  intros [d [evs f] pk] r st' H. unfold peek in H; simpl in *.
  destruct pk as [e|].
  - inversion H; subst. unfold view, vpeek; simpl. auto.
  - unfold inner_next in H; simpl in H.
    pose proof (inner_next_vis evs f) as Hv.
    destruct (inner_next_evs evs f) as [[e|m] r'].
    + inversion H; subst; clear H. unfold view, vpeek; simpl.
      destruct Hv as [Hv|(Hv & Hr & Hf & He)].
      * rewrite Hv. auto.
      * subst. rewrite Hv, Hr. simpl. split; [reflexivity|]. right; auto.
    + inversion H; subst; clear H. destruct Hv as (Hv & -> & ->).
      unfold view, vpeek; simpl. rewrite Hv. simpl. auto.
Qed.

(** Views that differ only by an explicit end-of-document event in front of
    the end-of-document final result behave alike. *)
Inductive veq : vstate -> vstate -> Prop :=
| veq_refl : forall v, veq v v
| veq_end : forall d, veq (VState d [EEndDoc] FEnd) (VState d [] FEnd)
| veq_end' : forall d, veq (VState d [] FEnd) (VState d [EEndDoc] FEnd).

Lemma veq_vpeek : forall v w, veq v w -> vpeek v = vpeek w.
Proof. intros v w H; destruct H; reflexivity. Qed.

Lemma veq_vnext : forall v w, veq v w ->
  fst (vnext v) = fst (vnext w) /\ veq (snd (vnext v)) (snd (vnext w)).
Proof.
  intros v w H; destruct H; simpl; split; try reflexivity; constructor.
Qed.

Lemma veq_depth : forall v w, veq v w -> v_depth v = v_depth w.
Proof. intros v w H; destruct H; reflexivity. Qed.

Lemma veq_sym : forall v w, veq v w -> veq w v.
Proof. intros v w H; destruct H; constructor. Qed.

Lemma veq_trans : forall u v w, veq u v -> veq v w -> veq u w.
Proof. intros u v w H1 H2; inversion H1; subst; inversion H2; subst; constructor. Qed.

Lemma veq_vrun : forall A (p : prog A) v w, veq v w ->
  fst (vrun p v) = fst (vrun p w) /\ veq (snd (vrun p v)) (snd (vrun p w)).
Proof.
  induction p as [a|m|m| |k IH|k IH|k IH]; intros v w H; simpl; auto.
  - rewrite (veq_vpeek _ _ H). apply IH; assumption.
  - destruct (veq_vnext _ _ H) as [H1 H2].
    destruct (vnext v) as [o1 v1], (vnext w) as [o2 w2]; simpl in *. subst o2.
    destruct o1; simpl; auto.
  - rewrite (veq_depth _ _ H). apply IH; assumption.
Qed.

Lemma next_view : forall st,
  fst (next_event st) = fst (vnext (view st)) /\
  veq (view (snd (next_event st))) (snd (vnext (view st))).
Proof.
  intros [d [evs f] pk]. unfold next_event; simpl.
  destruct pk as [e|].
  - unfold view, vnext; simpl. destruct (bump d e); simpl; split; try reflexivity; constructor.
  - unfold inner_next; simpl.
    pose proof (inner_next_vis evs f) as Hv.
    destruct (inner_next_evs evs f) as [[e|m] r'].
    + unfold view, vnext; simpl.
      destruct Hv as [Hv|(Hv & Hr & Hf & He)].
      * rewrite Hv. destruct (bump d e); simpl; split; try reflexivity; constructor.
      * subst. rewrite Hv. simpl. rewrite Hr. split; [reflexivity|constructor].
    + destruct Hv as (Hv & -> & ->). unfold view, vnext; simpl. rewrite Hv. simpl.
      split; [reflexivity|constructor].
Qed.

Theorem run_view : forall A (p : prog A) st,
  fst (run p st) = fst (vrun p (view st)) /\
  veq (view (snd (run p st))) (snd (vrun p (view st))).
Proof.
  induction p as [a|m|m| |k IH|k IH|k IH]; intros st; simpl;
    try (split; [reflexivity|constructor]).
  - destruct (peek st) as [r st'] eqn:Hp.
    destruct (peek_view _ _ _ Hp) as [-> Hv].
    destruct (IH (vpeek (view st)) st') as [H1 H2].
    assert (Hq : veq (view st') (view st)).
    { destruct Hv as [->|(-> & H & H0)]; [constructor|].
      destruct (view st) as [d0 l0 f0] eqn:Hvs; simpl in *; subst.
      assert (d_depth st = d0) by (unfold view in Hvs; congruence). subst. constructor. }
    destruct (veq_vrun _ (k (vpeek (view st))) _ _ Hq) as [H3 H4].
    split; [congruence|]. eapply veq_trans; eauto.
  - destruct (next_view st) as [H1 H2].
    destruct (next_event st) as [o st'], (vnext (view st)) as [o' v']; simpl in *; subst o'.
    destruct o as [r|]; simpl; [|auto].
    destruct (IH r st') as [H3 H4].
    destruct (veq_vrun _ (k r) _ _ H2) as [H5 H6].
    split; [congruence|]. eapply veq_trans; eauto.
  - apply IH.
Qed.

(** ** [vrun] and the monad operations *)

Lemma vrun_bind : forall A B (p : prog A) (f : A -> prog B) v,
  vrun (bind p f) v =
  match vrun p v with
  | (OOk a, v') => vrun (f a) v'
  | (OErr m, v') => (OErr m, v')
  | (OPanic m, v') => (OPanic m, v')
  | (OFuel, v') => (OFuel, v')
  end.
Proof.
  induction p as [a|m|m| |k IH|k IH|k IH]; intros f v; simpl; auto.
  destruct (vnext v) as [[r|] v']; auto.
Qed.

Lemma vrun_attempt : forall A (p : prog A) v,
  vrun (attempt p) v =
  match vrun p v with
  | (OOk a, v') => (OOk (Ok a), v')
  | (OErr m, v') => (OOk (Er m), v')
  | (OPanic m, v') => (OPanic m, v')
  | (OFuel, v') => (OFuel, v')
  end.
Proof.
  induction p as [a|m|m| |k IH|k IH|k IH]; intros v; simpl; auto.
  destruct (vnext v) as [[r|] v']; auto.
Qed.

Lemma run_bind : forall A B (p : prog A) (f : A -> prog B) v,
  run (bind p f) v =
  match run p v with
  | (OOk a, v') => run (f a) v'
  | (OErr m, v') => (OErr m, v')
  | (OPanic m, v') => (OPanic m, v')
  | (OFuel, v') => (OFuel, v')
  end.
Proof.
  induction p as [a|m|m| |k IH|k IH|k IH]; intros f v; simpl; auto.
  - destruct (peek v); auto.
  - destruct (next_event v) as [[r|] v']; auto.
Qed.

(** ** Fuel order: [ple p q] when [q] is [p] with some [Stuck] leaves
    replaced. *)
Inductive ple {A} : prog A -> prog A -> Prop :=
| ple_stuck : forall q, ple Stuck q
| ple_ret : forall a, ple (Ret a) (Ret a)
| ple_throw : forall m, ple (Throw m) (Throw m)
| ple_crash : forall m, ple (Crash m) (Crash m)
| ple_peek : forall k k', (forall r, ple (k r) (k' r)) -> ple (Peek k) (Peek k')
| ple_next : forall k k', (forall r, ple (k r) (k' r)) -> ple (Next k) (Next k')
| ple_depth : forall k k', (forall r, ple (k r) (k' r)) -> ple (Depth k) (Depth k').

Lemma ple_refl : forall A (p : prog A), ple p p.
Proof. induction p; constructor; auto. Qed.

Lemma ple_bind : forall A B (p q : prog A) (f g : A -> prog B),
  ple p q -> (forall a, ple (f a) (g a)) -> ple (bind p f) (bind q g).
Proof. intros A B p q f g H Hf; induction H; simpl; try constructor; auto. Qed.

Lemma ple_attempt : forall A (p q : prog A), ple p q -> ple (attempt p) (attempt q).
Proof. intros A p q H; induction H; simpl; constructor; auto. Qed.

Lemma ple_vrun : forall A (p q : prog A), ple p q -> forall v,
  fst (vrun p v) <> OFuel -> vrun q v = vrun p v.
Proof.
  intros A p q H; induction H; intros v Hv; simpl in *; auto; try congruence.
  destruct (vnext v) as [[r|] v']; auto.
Qed.

Lemma ple_run : forall A (p q : prog A), ple p q -> forall v,
  fst (run p v) <> OFuel -> run q v = run p v.
Proof.
  intros A p q H; induction H; intros v Hv; simpl in *; auto; try congruence.
  - destruct (peek v); auto.
  - destruct (next_event v) as [[r|] v']; auto.
Qed.

Lemma ple_trans : forall A (p q r : prog A), ple p q -> ple q r -> ple p r.
Proof.
  intros A p q r H; revert r; induction H; intros r2 Hr; inversion Hr; subst; constructor; auto.
Qed.

Lemma ple_skip_loop : forall S (cb : S -> event -> prog S) d f1 f2 s,
  f1 <= f2 -> ple (skip_loop f1 d cb s) (skip_loop f2 d cb s).
Proof.
  induction f1 as [|f1 IH]; intros f2 s Hle; simpl; [constructor|].
  destruct f2 as [|f2]; [lia|]. simpl. constructor; intros cur.
  destruct (Nat.leb d cur); [|apply ple_refl].
  constructor; intros r. apply ple_bind; [apply ple_refl|]. intros e.
  apply ple_bind; [apply ple_refl|]. intros s'. apply IH; lia.
Qed.
