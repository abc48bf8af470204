(** * C41: a document whose root element is not closed is never accepted.

    Vocabulary: SpecComplete.v, SpecTerm.v. *)
From Verif Require Import Str Num Xml XmlText Reader Schema De Ser Conform SpecTree SpecStruct SpecTerm SpecComplete CompleteProofs
  PropertiesStruct.
Open Scope list_scope.

(** ** In full *)
Definition C41_full : Prop :=
  forall x E fuel id s v, from_str x E fuel id s = OOk v -> root_closed (parse_text s).

(** An enum is read as soon as its variant is known, and a newtype as soon as
    its text is. *)
Definition colorT := enum_ "Color" ya0 [vunit "Red"; vunit "Green"] (VVar 0 []).
Definition ageT := TypeDef "Age" ya0 (DPrim (PInner (SInt U8))).
Theorem C41_refuted : ~ C41_full.
Proof.
  intros H.
  assert (Hc : root_closed (parse_text "<c>Green</")).
  { apply (H x0 [colorT] 20 0 "<c>Green</" (VVar 1 [])). vm_compute. reflexivity. }
  apply closed_has_end in Hc. destruct Hc as [n Hn]. vm_compute in Hn. decompose [or] Hn; discriminate || contradiction.
Qed.
Print Assumptions C41_refuted.

Theorem C41_newtype_refuted :
  ~ (forall x E fuel id s v td k, nth_error E id = Some td -> t_body td = DPrim k ->
     from_str x E fuel id s = OOk v -> root_closed (parse_text s)).
Proof.
  intros H.
  assert (Hc : root_closed (parse_text "<a>41</")).
  { apply (H x0 [ageT] 20 0 "<a>41</" (VInt 41) ageT (PInner (SInt U8))); vm_compute; reflexivity. }
  apply closed_has_end in Hc. destruct Hc as [n Hn]. vm_compute in Hn. decompose [or] Hn; discriminate || contradiction.
Qed.
Print Assumptions C41_newtype_refuted.

(** Missing for the full claim: unit variants and newtypes at the root.
    Fields, nested types and attributes of the struct are arbitrary. *)
Theorem C41_struct_partial :
  forall x E fuel id td fs s v, struct_type E id td fs ->
    from_str x E fuel id s = OOk v -> root_closed (parse_text s).
Proof. exact struct_text_closed. Qed.
Print Assumptions C41_struct_partial.

(** An enum with an unclosed root element is a unit variant. *)
Theorem C41_enum_partial :
  forall x E fuel id td vs df s v, nth_error E id = Some td -> t_body td = DEnum vs df ->
    from_str x E fuel id s = OOk v -> root_closed (parse_text s) \/ exists i, v = VVar i [].
Proof. exact enum_text_closed. Qed.
Print Assumptions C41_enum_partial.
Definition boxT := enum_ "Box" ya0 [vunit "Empty"; vnew "Int" (tint I32)] (VVar 0 []).
Example C41_enum_case :
  from_str x0 [boxT] 30 0 "<b><Int>5</Int></b>" = OOk (VVar 1 [VInt 5]) /\
  from_str x0 [boxT] 30 0 "<b><Int>5</Int></" = OErr "Unexpected end of stream".
Proof. split; vm_compute; reflexivity. Qed.

(** The same for every event source as a parser delivers them. *)
Theorem C41_events_partial :
  forall x E fuel id td fs s v, struct_type E id td fs -> parsed_source s ->
    from_events x E fuel id s = OOk v -> root_closed s.
Proof. exact struct_root_closed. Qed.
Print Assumptions C41_events_partial.

(** A person with an enum inside: cut anywhere, the text is rejected; what
    follows the root element is not looked at. *)
Definition EC := [struct_ "P" ya0 [fld "name" tstr; fld "color" (tuser 1)]; colorT].
Example C41_case :
  from_str x0 EC 60 0 "<P><name>n</name><color>Green</color></P>" = OOk (VRec [VStr "n"; VVar 1 []]) /\
  from_str x0 EC 60 0 "<P><name>n</name><color>Green</color></P><" = OOk (VRec [VStr "n"; VVar 1 []]) /\
  from_str x0 EC 60 0 "<P><name>n</name><color>Green</color>" =
    OErr "Unexpected end of stream: still inside the root element" /\
  struct_type EC 0 (struct_ "P" ya0 [fld "name" tstr; fld "color" (tuser 1)]) [fld "name" tstr; fld "color" (tuser 1)].
Proof. repeat split; vm_compute; reflexivity. Qed.
