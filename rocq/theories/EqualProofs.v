(** * Equality of values. *)
From Verif Require Import Str Num Xml Schema SpecSer.
Open Scope list_scope.

Fixpoint vheight (v : value) : nat :=
  let fix hs (l : list value) : nat := match l with [] => 0 | u :: l' => Nat.max (vheight u) (hs l') end in
  match v with
  | VOpt (Some u) => S (vheight u)
  | VVec l | VRec l | VVar _ l => S (hs l)
  | _ => 0
  end.
Fixpoint vheights (l : list value) : nat := match l with [] => 0 | u :: l' => Nat.max (vheight u) (vheights l') end.
Fixpoint eqb_list (x : ext) (l m : list value) : bool :=
  match l, m with
  | [], [] => true
  | u :: l', w :: m' => (value_eqb x u w && eqb_list x l' m')%bool
  | _, _ => false
  end.

Lemma equal_values : forall x a b, value_eqb x a b = true <-> Equal x a b.
Proof.
  intros x a. assert (Hn : exists n, vheight a < n) by (eexists; constructor). destruct Hn as [n Hn]. revert a Hn.
  induction n as [|n IH]; intros a Hn b; [lia|].
  assert (Hl : forall l, vheights l < n -> forall m, eqb_list x l m = true <-> Forall2 (Equal x) l m).
  { induction l as [|u l IHl]; intros Hh [|w m]; cbn [eqb_list]; try (split; [discriminate|intros H; inversion H]).
    - split; constructor.
    - cbn [vheights] in Hh. rewrite andb_true_iff, (IH u) by lia. rewrite IHl by lia.
      split; [intros [H1 H2]; constructor; assumption|intros H; inversion H; split; assumption]. }
  assert (Heq : forall l m, (fix eql (l m : list value) {struct l} : bool :=
      match l, m with
      | [], [] => true
      | u :: l', w :: m' => (value_eqb x u w && eql l' m')%bool
      | _, _ => false
      end) l m = eqb_list x l m).
  { induction l as [|u l IHl]; intros [|w m]; try reflexivity. cbn [eqb_list]. rewrite <- IHl. reflexivity. }
  assert (Hh : forall l, (fix hs (l : list value) : nat := match l with [] => 0 | u :: l' => Nat.max (vheight u) (hs l') end) l = vheights l).
  { induction l as [|u l IHl]; [reflexivity|]. cbn [vheights]. rewrite <- IHl. reflexivity. }
  destruct a as [s|s|s|s|s|[u|]|l|l|i l], b as [t|t|t|t|t|[w|]|m|m|j m]; cbn [value_eqb]; cbn [vheight] in Hn; rewrite ?Heq; rewrite ?Hh in Hn;
    try (split; [discriminate|intros H; inversion H; fail]).
  - rewrite String.eqb_eq. split; [intros ->; constructor|intros H; inversion H; reflexivity].
  - rewrite Bool.eqb_true_iff. split; [intros ->; constructor|intros H; inversion H; reflexivity].
  - rewrite Z.eqb_eq. split; [intros ->; constructor|intros H; inversion H; reflexivity].
  - split; [intros H; constructor; exact H|intros H; inversion H; assumption].
  - rewrite Z.eqb_eq. split; [intros ->; constructor|intros H; inversion H; reflexivity].
  - rewrite (IH u) by lia. split; [intros H; constructor; exact H|intros H; inversion H; assumption].
  - split; [intros _; constructor|reflexivity].
  - rewrite Hl by lia. split; [intros H; constructor; exact H|intros H; inversion H; assumption].
  - rewrite Hl by lia. split; [intros H; constructor; exact H|intros H; inversion H; assumption].
  - rewrite andb_true_iff, Nat.eqb_eq, Hl by lia. split; [intros [-> H]; constructor; exact H|intros H; inversion H; split; [reflexivity|assumption]].
Qed.
Lemma unequal_values : forall x a b, value_eqb x a b = false <-> ~ Equal x a b.
Proof.
  intros x a b. rewrite <- equal_values. destruct (value_eqb x a b); split; intros H; try discriminate; try reflexivity; try congruence.
Qed.
