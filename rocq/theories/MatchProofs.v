(** * Which field a struct's [match] takes for an element (C26): proofs. *)
From Verif Require Import Str Xml Schema De SpecTree SpecStruct.
From Coq Require Import Lia.
Open Scope list_scope.

Lemma arm_label : forall ra f ns l,
  (is_elem_field f && String.eqb (field_ns ra f) ns && String.eqb (field_local f) l)%bool = true <->
  elem_field f /\ flabel ra f = (ns, l).
Proof.
  intros ra f ns l. unfold is_elem_field, elem_field.
  rewrite !andb_true_iff, !negb_true_iff, !String.eqb_eq.
  change (flabel ra f) with (field_ns ra f, field_local f). split.
  - intros (((H1 & H2) & H3) & H4). rewrite H3, H4. auto.
  - intros [H H3]. inversion H3. auto.
Qed.

Lemma matched_from : forall ra ns l fs k i f,
  find_field ra fs k ns l = Some (i, f) <->
  exists j, i = k + j /\ nth_error fs j = Some f /\ elem_field f /\ flabel ra f = (ns, l) /\
    forall j' g, j' < j -> nth_error fs j' = Some g -> elem_field g -> flabel ra g <> (ns, l).
Proof.
  intros ra ns l. induction fs as [|g fs IH]; intros k i f; cbn [find_field].
  - split; [discriminate|]. intros (j & _ & H & _). destruct j; discriminate H.
  - destruct (_ && _)%bool eqn:Hm.
    + apply arm_label in Hm. destruct Hm as [He Hl]. split.
      * intros H. inversion H; subst. exists 0. repeat split; try assumption; try apply He; [lia|]. intros j' g' Hj. lia.
      * intros (j & -> & Hn & _ & _ & Hf). destruct j as [|j].
        -- cbn in Hn. inversion Hn. rewrite Nat.add_0_r. reflexivity.
        -- exfalso. exact (Hf 0 g (Nat.lt_0_succ _) eq_refl He Hl).
    + rewrite IH. split.
      * intros (j & -> & Hn & He & Hl & Hf). exists (S j). repeat split; try assumption; try apply He; [lia|].
        intros [|j'] g' Hj Hg' He' Hl'.
        -- cbn in Hg'. inversion Hg'; subst g'. assert (Ht := proj2 (arm_label ra g ns l) (conj He' Hl')). congruence.
        -- exact (Hf j' g' ltac:(lia) Hg' He' Hl').
      * intros (j & -> & Hn & He & Hl & Hf). destruct j as [|j].
        -- cbn in Hn. inversion Hn; subst g. assert (Ht := proj2 (arm_label ra f ns l) (conj He Hl)). congruence.
        -- exists j. repeat split; try assumption; try apply He; [lia|].
           intros j' g' Hj Hg'. exact (Hf (S j') g' ltac:(lia) Hg').
Qed.

Theorem matched_field : forall ra fs n i f,
  find_field ra fs 0 (opt_default "" (n_ns n)) (n_local n) = Some (i, f) <->
  first_labelled ra fs i f /\ elabel n = flabel ra f.
Proof.
  intros ra fs n i f. rewrite matched_from.
  change (opt_default "" (n_ns n), n_local n) with (elabel n). split.
  - intros (j & -> & Hn & He & Hl & Hf). cbn [Nat.add]. split; [|symmetry; exact Hl].
    split; [exact Hn|]. split; [exact He|]. rewrite Hl. exact Hf.
  - intros [(Hn & He & Hf) Hl]. exists i. rewrite Hl. repeat split; try assumption; apply He.
Qed.
