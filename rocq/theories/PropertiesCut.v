(** * C52: input that is broken off yields an error, or the value that every
    continuation of the input yields.

    Vocabulary: SpecCut.v. *)
From Verif Require Import Str Num Xml XmlText Reader Schema De Ser Conform SpecTree SpecStruct SpecTerm SpecComplete SpecCut CompleteProofs CutProofs
  PropertiesStruct PropertiesComplete.
Open Scope list_scope.

(** ** In full *)
Definition C52_full : Prop :=
  forall x E fuel id s msg r v,
    (from_failing x E fuel id s msg = OOk v \/ (unfinished s /\ from_str x E fuel id s = OOk v)) ->
    from_str x E fuel id (s +++ r) = OOk v.

(** A newtype whose text did not arrive is read as if it were empty. *)
Definition nameT := TypeDef "Name" ya0 (DPrim (PInner SString)).
Theorem C52_refuted : ~ C52_full.
Proof.
  intros H.
  assert (Hx : from_str x0 [nameT] 20 0 ("<Name>An" +++ "na</Name>") = OOk (VStr "")).
  { apply (H x0 [nameT] 20 0 "<Name>An" "connection reset" "na</Name>" (VStr "")). left. vm_compute. reflexivity. }
  vm_compute in Hx. discriminate Hx.
Qed.
Print Assumptions C52_refuted.

(** ** Structs and enums
    Missing for the full claim: newtypes at the root.  Everything else is
    arbitrary: the fields, the nested types, the attributes, the texts. *)
Theorem C52_reader_partial :
  forall x E fuel id td s msg r v, nth_error E id = Some td -> compound td ->
    from_failing x E fuel id s msg = OOk v -> from_str x E fuel id (s +++ r) = OOk v.
Proof. exact cut_reader. Qed.
Print Assumptions C52_reader_partial.

(** A text that ends early; and whatever follows a document is not looked at,
    unless the type is flattened. *)
Theorem C52_text_partial :
  forall x E fuel id td s r v, nth_error E id = Some td -> compound td ->
    ya_flatten (t_attrs td) = false \/ unfinished s ->
    from_str x E fuel id s = OOk v -> from_str x E fuel id (s +++ r) = OOk v.
Proof. exact cut_text. Qed.
Print Assumptions C52_text_partial.

(** The same without asking the parser: when the root element is not closed in
    what arrived. *)
Theorem C52_unclosed_partial :
  forall x E fuel id td s r v, nth_error E id = Some td -> compound td ->
    ~ root_closed (parse_text s) ->
    from_str x E fuel id s = OOk v -> from_str x E fuel id (s +++ r) = OOk v.
Proof. exact cut_unclosed. Qed.
Print Assumptions C52_unclosed_partial.

(** A newtype is read as above, or as if its text were empty. *)
Theorem C52_newtype_partial :
  forall x E fuel id td k s msg r v, nth_error E id = Some td -> t_body td = DPrim k ->
    from_failing x E fuel id s msg = OOk v ->
    from_str x E fuel id (s +++ r) = OOk v \/ parse_prim x (t_name td) k "" = Ok v.
Proof. exact cut_newtype. Qed.
Print Assumptions C52_newtype_partial.

(** A reader that fails after the root element of a struct is not asked again;
    one that fails before is reported, with its own message. *)
Example C52_case :
  from_failing x0 EC 60 0 "<P><name>n</name><color>Green</color></P>" "connection reset" = OOk (VRec [VStr "n"; VVar 1 []]) /\
  from_failing x0 EC 60 0 "<P><name>n</name><color>Green</color>" "connection reset" = OErr "connection reset" /\
  from_failing x0 EC 60 0 "<P><name>n</name><color>Gr" "connection reset" = OErr "connection reset" /\
  from_failing x0 [colorT] 60 0 "<c>Green</" "connection reset" = OOk (VVar 1 []) /\
  from_failing x0 [nameT] 20 0 "<Name>Anna</" "connection reset" = OOk (VStr "Anna") /\
  unfinished "<c>Green</" /\ compound colorT /\ compound (struct_ "P" ya0 [fld "name" tstr; fld "color" (tuser 1)]).
Proof. repeat split; try (vm_compute; reflexivity). intros H. vm_compute in H. discriminate H. Qed.

Example C52_case_unclosed :
  ~ root_closed (parse_text "<c>Green</") /\ compound colorT /\
  from_str x0 [colorT] 60 0 "<c>Green</" = OOk (VVar 1 []).
Proof.
  split; [|split; [exact I|vm_compute; reflexivity]].
  intros Hc. apply closed_has_end in Hc. destruct Hc as [n Hn]. vm_compute in Hn. decompose [or] Hn; discriminate || contradiction.
Qed.

(** C41 for such readers: a struct is only read when the end tag of the root
    element has been delivered. *)
Theorem C41_reader_partial :
  forall x E fuel id td fs s msg v, struct_type E id td fs ->
    from_failing x E fuel id s msg = OOk v -> root_closed (parse_failing s msg).
Proof. exact struct_failing_closed. Qed.
Print Assumptions C41_reader_partial.
