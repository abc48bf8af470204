(** * C60, C61: identifiers behind a [rename] and attributes of the other
      direction do not matter.

    Vocabulary: SpecNames.v ([read_alike], [write_alike], [same_reading]). *)
From Verif Require Import Str Num Xml XmlText Reader Schema De Ser Conform SpecNames NamesProofs.
Open Scope list_scope.

(** ** C60: the reader *)

(** In full: whatever the identifiers of types that have a name of their own
    in documents. *)
Definition C60_full : Prop :=
  forall x E E', Forall2 r_type E E' ->
  (forall id td td', nth_error E id = Some td -> nth_error E' id = Some td' ->
     is_prim td -> t_name td' = t_name td) ->
  forall fuel id s, same_reading (from_str x E fuel id s) (from_str x E' fuel id s).

(** False: the value of an attribute is read from an element named after the
    identifier of the type (expand_struct.rs:66-93), and this name may be that
    of a variant.  The attribute [k="x"] is read as [Kind::A]. *)
Definition kind (ident : string) (a : yattr) :=
  enum_ ident a [Variant "A" (a_rename "Kind" ya0) VbUnit; Variant "B" (a_rename "x" ya0) VbUnit]
    (VVar 1 []).
Definition kindE := [struct_ "S" ya0 [fldA "k" (a_attr ya0) (tuser 1)]; kind "Kind" ya0].
Definition kindE' := [struct_ "S" ya0 [fldA "k" (a_attr ya0) (tuser 1)]; kind "Other" (a_rename "Kind" ya0)].
Example kind_reads :
  from_str x0 kindE fuel 0 "<S k=""x""/>" = OOk (VRec [VVar 0 []]) /\
  from_str x0 kindE' fuel 0 "<S k=""x""/>" = OOk (VRec [VVar 1 []]).
Proof. vm_compute. split; reflexivity. Qed.

Theorem C60_attribute_type_refuted : ~ C60_full.
Proof.
  intros H.
  destruct (H x0 kindE kindE') with (fuel := fuel) (id := 0) (s := "<S k=""x""/>") as [Hv|(m & m' & Hv & _)].
  - constructor; [|constructor; [|constructor]];
      repeat (split; try reflexivity); repeat constructor.
  - intros [|[|[|id]]] td td' Ht Ht' [k Hk]; inversion Ht; subst td; discriminate Hk.
  - destruct kind_reads as [H1 H2]. rewrite H1, H2 in Hv. discriminate Hv.
  - destruct kind_reads as [H1 _]. rewrite H1 in Hv. discriminate Hv.
Qed.
Print Assumptions C60_attribute_type_refuted.

(** Partial: types of attributes keep their identifiers.  For every event
    source, not only for texts. *)
Theorem C60_reading_partial : forall x E E', read_alike E E' ->
  forall fuel id s, same_reading (from_events x E fuel id s) (from_events x E' fuel id s).
Proof. exact names_reading. Qed.
Print Assumptions C60_reading_partial.

(** Every identifier that has a [rename] changed; attributes about writing
    added to fields, variants and types. *)
Definition nameE :=
  [ struct_ "Shop" (a_ns [("p", "u")] ya0)
      [fldA "id" (a_attr ya0) (tint U8); fldA "item" (a_prefix "p" ya0) (TVec (BUser 1));
       fld "note" (TOpt (BSimple SString)); fldA "f" (a_flatten ya0) (tuser 2)];
    struct_ "Item" ya0 [fldA "kind" (a_attr ya0) (tuser 3); fldA "t" (a_text ya0) tstr];
    enum_ "Way" ya0 [vunit "Walk"; vnew "Ride" (tuser 1)] (VVar 0 []);
    enum_ "Kind" ya0 [vunit "Big"; vunit "Small"] (VVar 0 []) ].
Definition nameE' :=
  [ struct_ "Store" (a_rename "Shop" (a_dns "p" (a_ns [("p", "u")] ya0)))
      [fldA "key" (a_attr (a_rename "id" (a_skip_if "always" ya0))) (tint U8);
       fldA "things" (a_skip (a_rename "item" (a_prefix "p" ya0))) (TVec (BUser 1));
       fldA "remark" (a_rename "note" ya0) (TOpt (BSimple SString));
       fldA "g" (a_rename "f" (a_flatten (a_skip ya0))) (tuser 2)];
    struct_ "Thing" (a_rename "Item" ya0)
      [fldA "sort" (a_rename "kind" (a_attr ya0)) (tuser 3);
       fldA "text" (a_rename "t" (a_cdata (a_text ya0))) tstr];
    enum_ "Path" (a_rename "Way" (a_dns "q" ya0))
      [Variant "Foot" (a_rename "Walk" (a_prefix "q" ya0)) VbUnit;
       Variant "Horse" (a_rename "Ride" ya0) (VbNew true (tuser 1))] (VVar 0 []);
    enum_ "Kind" (a_rename "Kind" ya0)
      [Variant "Large" (a_rename "Big" ya0) VbUnit; Variant "Little" (a_rename "Small" ya0) VbUnit] (VVar 0 []) ].

Lemma names_alike : read_alike nameE nameE'.
Proof.
  split.
  - repeat constructor.
  - intros [|[|[|[|[|id]]]]] td td' Ht Ht' H; inversion Ht; subst td; inversion Ht'; subst td';
      try reflexivity; exfalso; clear Ht Ht';
      (destruct H as [(k & td & fs & f & Hk & Hb & Hin & Ha & Hu)|[k Hk]]; [|discriminate Hk]);
      destruct k as [|[|[|[|[|k]]]]]; inversion Hk; subst td; try discriminate Hb; inversion Hb; subst fs;
      repeat destruct Hin as [<-|Hin]; try contradiction; try discriminate Ha; discriminate Hu.
Qed.

Example C60_case :
  let ok := "<Shop id=""7"" xmlns:p=""u""><p:item kind=""Small"">pen</p:item><note>n</note><Ride kind=""Big"">z</Ride></Shop>" in
  let v := VRec [VInt 7; VVec [VRec [VVar 1 []; VStr "pen"]]; VOpt (Some (VStr "n"));
                 VVar 1 [VRec [VVar 0 []; VStr "z"]]] in
  let bad := "<Shop xmlns:p=""u""/>" in
  read_alike nameE nameE' /\
  from_str x0 nameE fuel 0 ok = OOk v /\ from_str x0 nameE' fuel 0 ok = OOk v /\
  from_str x0 nameE fuel 0 bad = OErr "id is a required field of Shop" /\
  from_str x0 nameE' fuel 0 bad = OErr "key is a required field of Store".
Proof. split; [exact names_alike|]. vm_compute. repeat split. Qed.

(** ** C61: the writer *)

Theorem C61_writing : forall x E E', write_alike E E' ->
  (forall id v sched w, ser x E' id v sched w = ser x E id v sched w) /\
  (forall c id v, to_string_with_config x E' c id v = to_string_with_config x E c id v).
Proof. exact (fun x E E' H => conj (names_ser x E E' H) (names_to_string x E E' H)). Qed.
Print Assumptions C61_writing.

(** Every identifier that has a [rename] changed, and the default values. *)
Definition nameW :=
  [ struct_ "Store" (a_rename "Shop" (a_ns [("p", "u")] ya0))
      [fldA "key" (a_attr (a_rename "id" ya0)) (tint U8);
       fldA "things" (a_rename "item" (a_prefix "p" ya0)) (TVec (BUser 1));
       fldA "remark" (a_rename "note" ya0) (TOpt (BSimple SString));
       fldA "g" (a_rename "f" (a_flatten ya0)) (tuser 2)];
    struct_ "Thing" (a_rename "Item" ya0)
      [fldA "sort" (a_rename "kind" (a_attr ya0)) (tuser 3);
       fldA "text" (a_rename "t" (a_text ya0)) tstr];
    enum_ "Path" (a_rename "Way" ya0)
      [Variant "Foot" (a_rename "Walk" ya0) VbUnit;
       Variant "Horse" (a_rename "Ride" ya0) (VbNew false (tuser 1))] (VVar 1 [VStr "?"]);
    enum_ "Sort" (a_rename "Kind" ya0)
      [Variant "Large" (a_rename "Big" ya0) VbUnit; Variant "Little" (a_rename "Small" ya0) VbUnit] (VVar 1 []) ].

Example C61_case :
  let v := VRec [VInt 7; VVec [VRec [VVar 1 []; VStr "pen"]]; VOpt (Some (VStr "n"));
                 VVar 1 [VRec [VVar 0 []; VStr "z"]]] in
  let t := SOk (decl +++ "<Shop xmlns:p=""u"" id=""7""><p:item kind=""Small"">pen</p:item><note>n</note><Ride>z</Ride></Shop>") in
  write_alike nameE nameW /\ to_string x0 nameE 0 v = t /\ to_string x0 nameW 0 v = t.
Proof.
  split; [|vm_compute; split; reflexivity].
  repeat (constructor; [repeat (split; try reflexivity); try (intros [k Hk]; discriminate Hk); repeat constructor|]).
  constructor.
Qed.
