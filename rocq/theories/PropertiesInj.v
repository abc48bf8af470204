(** * C43: different values are written as different texts.

    Vocabulary: SpecRound.v. *)
From Verif Require Import Str Num Xml XmlText Reader Schema De Ser Conform SpecTree SpecText SpecTyped SpecStruct SpecValue
  SpecEnc SpecRound RoundCheck InjProofs PropertiesStruct PropertiesRound.
Open Scope list_scope.

Definition C43_full : Prop :=
  forall x E id v w s, Typed E id v -> Typed E id w -> to_string x E id v = SOk s -> to_string x E id w = SOk s -> v = w.

(** Lists in attributes are not written. *)
Definition idsT := struct_ "L" ya0 [fldA "ids" (a_attr ya0) (TVec (BSimple (SInt I32)))].
Theorem C43_refuted : ~ C43_full.
Proof.
  intros H.
  assert (Hx : VRec [VVec [VInt 1]] = VRec [VVec []]); [|discriminate Hx].
  apply (H x0 [idsT] 0 _ _ (decl +++ "<L />")); [typed|typed|vm_compute; reflexivity|vm_compute; reflexivity].
Qed.
Print Assumptions C43_refuted.

(** Missing for the full claim: values that do not survive the round trip
    (C28).  The two texts may have been indented differently. *)
Theorem C43_injective_partial :
  forall x E c c' id v w s, supported E -> rootable E id ->
    Survives x E false id v -> Survives x E false id w -> white_indent c -> white_indent c' ->
    to_string_with_config x E c id v = SOk s -> to_string_with_config x E c' id w = SOk s -> v = w.
Proof. exact text_injective. Qed.
Print Assumptions C43_injective_partial.

Example C43_case :
  supported [book_ns] /\ rootable [book_ns] 0 /\
  Survives x0 [book_ns] false 0 (VRec [VStr "A &amp; B"; VStr "T"]) /\
  Survives x0 [book_ns] false 0 (VRec [VStr "A & B"; VStr "T"]) /\
  to_string x0 [book_ns] 0 (VRec [VStr "A &amp; B"; VStr "T"]) <> to_string x0 [book_ns] 0 (VRec [VStr "A & B"; VStr "T"]).
Proof. split; [supp|]. split; [root|]. split; [surv|]. split; [surv|]. vm_compute. discriminate. Qed.
