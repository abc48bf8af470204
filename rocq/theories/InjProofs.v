(** * Values of the supported class are told apart by their texts (C43): proofs. *)
From Verif Require Import Str Num Xml XmlText Reader Schema De Ser SpecTree SpecText SpecValue SpecStruct SpecEnc SpecRound
  RoundReads RoundText.
Open Scope list_scope.
Theorem text_injective : forall x E c c' id v w s, supported E -> rootable E id ->
  Survives x E false id v -> Survives x E false id w -> white_indent c -> white_indent c' ->
  to_string_with_config x E c id v = SOk s -> to_string_with_config x E c' id w = SOk s -> v = w.
Proof.
  intros x E c c' id v w s HE Hr Hv Hw Hc Hc' H1 H2.
  destruct (round_text x E c id v s HE Hr Hv Hc H1) as [N1 R1]. destruct (round_text x E c' id w s HE Hr Hw Hc' H2) as [N2 R2].
  specialize (R1 (N1 + N2) (Nat.le_add_r _ _)). specialize (R2 (N1 + N2) (Nat.le_add_l _ _)). congruence.
Qed.
