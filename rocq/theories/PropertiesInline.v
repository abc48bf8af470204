(** * C58: a flattened struct is written as its fields would be.

    Vocabulary: SpecInline.v ([Inlined]: the value of the types in which the
    fields of flattened structs stand in place of the flattened field),
    SpecAlike.v ([same_document]: equal but for prefixes, declarations and the
    order of attributes). *)
From Verif Require Import Str Num Xml XmlText Reader Schema De Ser Conform SpecTree SpecStruct SpecRound SpecOut OutCheck SpecComplete SpecAlike SpecInline
  AlikeProofs InlineProofs PropertiesStruct PropertiesRound.
Open Scope list_scope.

(** ** In full *)
Definition C58_full : Prop :=
  forall x E E' c id v v' s, Inlined false E E' id v v' ->
    to_string_with_config x E c id v = SOk s ->
    exists s', to_string_with_config x E' c id v' = SOk s' /\ same_document (parse_text s) (parse_text s').

(** The default namespace of a flattened struct becomes that of the element it
    is written in, with the element's name and its other fields: <S
    xmlns="u"><a>1</a><b>2</b></S>, where <a> is in no namespace if the fields
    of T are fields of S. *)
Definition defE := [struct_ "S" ya0 [fld "a" tstr; fldA "t" (a_flatten ya0) (tuser 1)];
  struct_ "T" (a_dns "d" (a_ns [("d", "u")] ya0)) [fldA "b" (a_prefix "d" ya0) tstr]].
Definition defE' := [struct_ "S" (a_ns [("d", "u")] ya0) [fld "a" tstr; fldA "b" (a_prefix "d" ya0) tstr];
  struct_ "T" (a_dns "d" (a_ns [("d", "u")] ya0)) [fldA "b" (a_prefix "d" ya0) tstr]].
Definition defV := VRec [VStr "1"; VRec [VStr "2"]].
Definition defV' := VRec [VStr "1"; VStr "2"].
Ltac keep := apply inlf_keep; [right; reflexivity|try discriminate|repeat constructor|].
Lemma def_inlined : Inlined false defE defE' 0 defV defV'.
Proof.
  eapply inl_rec with (ns := [("d", "u")] ++ [] ++ []); try reflexivity; [repeat split; intros H; exact H|].
  keep. apply (inlf_flat false defE defE' None (fldA "t" (a_flatten ya0) (tuser 1)) 1 (struct_ "T" (a_dns "d" (a_ns [("d", "u")] ya0)) [fldA "b" (a_prefix "d" ya0) tstr])
    [fldA "b" (a_prefix "d" ya0) tstr] [VStr "2"] [fldA "b" (a_prefix "d" ya0) tstr] [VStr "2"] [] [] [] [] [] []); try reflexivity; try discriminate.
  - repeat split.
  - keep. constructor.
  - constructor.
Qed.
Theorem C58_default_namespace_refuted : ~ C58_full.
Proof.
  intros H. destruct (H x0 defE defE' config0 0 defV defV' (decl +++ "<S xmlns=""u""><a>1</a><b>2</b></S>") def_inlined) as (s' & Hs & [Hd _]).
  - vm_compute. reflexivity.
  - vm_compute in Hs. inversion Hs. subst s'. clear Hs. vm_compute in Hd. inversion Hd as [|e e' l l' He Hr H1 H2]; subst. destruct He as [[_ He] _]. discriminate He.
Qed.
Print Assumptions C58_default_namespace_refuted.

(** ** What holds
    Missing for the full claim: flattened structs with another default
    namespace than the struct around them, types that bind a prefix to
    different namespaces, [skip_serializing_if] functions that look at the
    whole struct, types with improper, unbound or repeated names, documents
    with control characters.  The fields of flattened structs may be moved out
    at any depth, and in any number of types at once. *)
Theorem C58_inlined_partial :
  forall x E E' c c' id v v' s,
    writable_types E -> writable_types E' -> own_element E id -> agreed_bindings E E' -> skip_by_value x ->
    Inlined true E E' id v v' ->
    (forall l, ser_events x E id v = SOk l -> forall e, In e l -> legal_event e) ->
    white_indent c -> white_indent c' ->
    to_string_with_config x E c id v = SOk s ->
    exists s', to_string_with_config x E' c' id v' = SOk s' /\ same_document (parse_text s) (parse_text s') /\
      Forall distinct_locals (markup (parse_text s)).
Proof. exact inlined_documents. Qed.
Print Assumptions C58_inlined_partial.

(** So no reader without flattened fields sees a difference. *)
Theorem C58_read_partial :
  forall x E E' c c' id v v' s,
    writable_types E -> writable_types E' -> own_element E id -> agreed_bindings E E' -> skip_by_value x ->
    Inlined true E E' id v v' ->
    (forall l, ser_events x E id v = SOk l -> forall e, In e l -> legal_event e) ->
    white_indent c -> white_indent c' ->
    to_string_with_config x E c id v = SOk s ->
    exists s', to_string_with_config x E' c' id v' = SOk s' /\
      forall x0 E0 fuel id0, unflattened E0 -> from_str x0 E0 fuel id0 s = from_str x0 E0 fuel id0 s'.
Proof. exact inlined_reads. Qed.
Print Assumptions C58_read_partial.

(** A letter with a flattened head, in which the origin is flattened; both have
    attributes, and the origin has a prefix of its own.  The head is moved out
    with all that is in it. *)
Definition originF := [fldA "by" (a_attr (a_prefix "o" ya0)) tstr; fldA "place" (a_prefix "o" ya0) tstr].
Definition originT := struct_ "Origin" (a_ns [("o", "urn:o")] ya0) originF.
Definition headF := [fldA "lang" (a_attr ya0) tstr; fldA "origin" (a_flatten ya0) (tuser 2); fld "title" tstr].
Definition headT := struct_ "Head" ya0 headF.
Definition headF' := [fldA "lang" (a_attr ya0) tstr] ++ originF ++ [fld "title" tstr].
Definition headT' := struct_ "Head" (a_ns [("o", "urn:o")] ya0) headF'.
Definition letterT := struct_ "Letter" ya0 [fldA "head" (a_flatten ya0) (tuser 1); fldA "no" (a_attr ya0) (tint U8); fld "old" (TVec (BUser 1)); fld "text" tstr].
Definition letterT' := struct_ "Letter" (a_ns [("o", "urn:o")] ya0)
  (headF' ++ [fldA "no" (a_attr ya0) (tint U8); fld "old" (TVec (BUser 1)); fld "text" tstr]).
Definition letterE := [letterT; headT; originT].
Definition letterE' := [letterT'; headT'; originT].
Definition headV := [VStr "de"; VRec [VStr "Ann"; VStr "Ulm"]; VStr "Hi"].
Definition headV' := [VStr "de"; VStr "Ann"; VStr "Ulm"; VStr "Hi"].
Definition letterV := VRec [VRec headV; VInt 3; VVec [VRec headV]; VStr "x"].
Definition letterV' := VRec (headV' ++ [VInt 3; VVec [VRec headV']; VStr "x"]).
Definition letter1 := decl +++ "<Letter xmlns:o=""urn:o"" no=""3"" lang=""de"" o:by=""Ann""><o:place>Ulm</o:place><title>Hi</title><old lang=""de"" o:by=""Ann""><o:place>Ulm</o:place><title>Hi</title></old><text>x</text></Letter>".
(** A reader of another program. *)
Definition readerE := [struct_ "Letter" ya0 [fldA "lang" (a_attr ya0) tstr; fld "text" tstr; fld "title" tstr]].

Lemma head_inlined : InlFields true letterE letterE' None headF headV headF' headV' ([("o", "urn:o")] ++ [] ++ []).
Proof.
  apply inlf_keep; [right; reflexivity|intros _ id td H; discriminate H|repeat constructor|].
  apply (inlf_flat true letterE letterE' None (fldA "origin" (a_flatten ya0) (tuser 2)) 2 originT originF [VStr "Ann"; VStr "Ulm"] originF [VStr "Ann"; VStr "Ulm"] []);
    try reflexivity; [repeat split| |].
  - apply inlf_keep; [right; reflexivity|intros _ id td H; discriminate H|repeat constructor|]. keep. constructor.
  - keep. constructor.
Qed.
Lemma letter_inlined : Inlined true letterE letterE' 0 letterV letterV'.
Proof.
  eapply inl_rec with (ns := [] ++ [("o", "urn:o")] ++ []); try reflexivity; [repeat split; intros H; exact H|].
  apply (inlf_flat true letterE letterE' None (fldA "head" (a_flatten ya0) (tuser 1)) 1 headT headF headV headF' headV' [("o", "urn:o")]);
    try reflexivity; [repeat split|exact head_inlined|].
  apply inlf_keep; [right; reflexivity|intros _ id td H; discriminate H|repeat constructor|].
  apply inlf_keep; [left; split; reflexivity|discriminate| |].
  - constructor. constructor; [|constructor]. constructor. eapply inl_rec; try reflexivity; [|exact head_inlined].
    repeat split; intros H; exact H.
  - keep. constructor.
Qed.
Example C58_case :
  writable_types letterE /\ writable_types letterE' /\ own_element letterE 0 /\ agreed_bindings letterE letterE' /\
  Inlined true letterE letterE' 0 letterV letterV' /\
  (forall l, ser_events x0 letterE 0 letterV = SOk l -> forall e, In e l -> legal_event e) /\
  to_string x0 letterE 0 letterV = SOk letter1 /\
  to_string x0 letterE' 0 letterV' = SOk (decl +++ "<Letter xmlns:o=""urn:o"" lang=""de"" o:by=""Ann"" no=""3""><o:place>Ulm</o:place><title>Hi</title><old lang=""de"" o:by=""Ann""><o:place>Ulm</o:place><title>Hi</title></old><text>x</text></Letter>") /\
  unflattened readerE /\ from_str x0 readerE fuel 0 letter1 = OOk (VRec [VStr "de"; VStr "x"; VStr "Hi"]).
Proof.
  split; [wtypes|]. split; [wtypes|]. split; [apply own_elementb_ok; reflexivity|]. split; [|split; [exact letter_inlined|]].
  - intros p u u' H1 H2. vm_compute in H1, H2.
    repeat (destruct H1 as [H1|H1]; [injection H1 as <- <-|]); [..|destruct H1];
      repeat (destruct H2 as [H2|H2]; [injection H2; intros; congruence|]); destruct H2.
  - split; [|split; [vm_compute; reflexivity|split; [vm_compute; reflexivity|split]]].
    + intros l Hl. vm_compute in Hl. injection Hl as <-. intros e He.
      repeat (destruct He as [<-|He]; [cbn; try exact I; try reflexivity; intros t Ht; repeat destruct Ht as [<-|Ht]; try destruct Ht; reflexivity|]). destruct He.
    + intros td fs [<-|[]] H. injection H as <-. reflexivity.
    + vm_compute. reflexivity.
Qed.
(** [skip_by_value]: functions of the value alone. *)
Example C58_ext_case : skip_by_value x0.
Proof. intros g self self' v. reflexivity. Qed.
