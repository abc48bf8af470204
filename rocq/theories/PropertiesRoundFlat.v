(** * Round trips of types with flattened fields: C27, C28.

    Vocabulary: SpecRoundFlat.v ([all_ok], [root_ok], [Lasts], ...). *)
From Verif Require Import Str Num Xml XmlText Reader Schema De Ser Conform SpecTree SpecText SpecNum SpecTyped SpecStruct SpecSer SpecValue
  SpecEnc SpecRound SpecRoundFlat RoundText RoundCheck RoundFlatCheck RoundFlatProofs PropertiesStruct PropertiesSer PropertiesRound.
Open Scope list_scope.

Ltac allok := apply all_okb_ok; vm_compute; reflexivity.
Ltac rootok := apply root_okb_ok; vm_compute; reflexivity.
Ltac lasts := match goal with |- Lasts ?x ?E _ _ _ => apply (lastsb_ok x E 20); vm_compute; reflexivity end.

(** ** C27: events *)
Theorem C27_flatten_events_partial :
  forall x E id v l, all_ok E -> root_ok E id -> Lasts x E false id v ->
    ser_events x E id v = SOk l ->
    exists w, l = wtree w /\ is_elem w /\
      exists N, forall fuel, N <= fuel ->
        from_events x E fuel id (Stream (EStartDoc :: flat (reread [] w)) FEnd) = OOk v.
Proof. exact flat_round_events. Qed.
Print Assumptions C27_flatten_events_partial.

(** [flatten.rs], basic_flatten: structs, an optional struct and an enum
    flattened, two levels deep. *)
Example C27_flatten_case : all_ok E_dt /\ root_ok E_dt 0 /\ Lasts x0 E_dt false 0 dt_val.
Proof. split; [allok|]. split; [rootok|]. lasts. Qed.

(** ** C28: text *)
Theorem C28_flatten_text_partial :
  forall x E c id v s, all_ok E -> root_ok E id -> Lasts x E false id v -> white_indent c ->
    to_string_with_config x E c id v = SOk s ->
    exists N, forall fuel, N <= fuel -> from_str x E fuel id s = OOk v.
Proof. exact flat_round_text. Qed.
Print Assumptions C28_flatten_text_partial.

Example C28_flatten_case :
  all_ok E_dt /\ root_ok E_dt 0 /\ Lasts x0 E_dt false 0 dt_val /\ to_string x0 E_dt 0 dt_val = SOk (decl +++ dt_txt).
Proof. split; [allok|]. split; [rootok|]. split; [lasts|vm_compute; reflexivity]. Qed.
(** No lunar day; the element of another type next to the flattened fields. *)
Example C28_flatten_case_none :
  Lasts x0 E_dt false 0 (VRec [ VRec [VInt (-44); VInt 3; VInt 15; VRec [VInt 11; VInt 0]; VOpt None];
                                VStr "<noon>"; VVar 0 [VVec [VStr "Ides"]]]).
Proof. lasts. Qed.
(** [flatten.rs], flatten_attribute: attributes of two levels on one element. *)
Example C28_flatten_case_attributes :
  all_ok E_html /\ root_ok E_html 0 /\ Lasts x0 E_html false 0 html_val /\
  to_string x0 E_html 0 html_val = SOk (decl +++ html_txt).
Proof. split; [allok|]. split; [rootok|]. split; [lasts|vm_compute; reflexivity]. Qed.
(** A struct that occurs in the content of its own flattened field, with a text. *)
Definition E_par : env :=
  [ struct_ "Par" ya0 [fldA "head" (a_flatten ya0) (tuser 1); fldA "body" (a_text ya0) tstr; fldA "id" (a_attr ya0) (tint U8)];
    struct_ "Head" ya0 [fldA "lang" (a_attr ya0) (TOpt (BSimple SString)); fld "note" (TVec (BUser 2))];
    struct_ "Note" ya0 [fld "par" (TVec (BUser 0))] ].
Definition par_val (l : list value) : value := VRec [VRec [VOpt (Some (VStr "en")); VVec [VRec [VVec l]]]; VStr "a < b"; VInt 7].
Example C28_flatten_case_text :
  all_ok E_par /\ root_ok E_par 0 /\ Lasts x0 E_par false 0 (par_val [par_val []; par_val []]) /\
  to_string x0 E_par 0 (par_val [par_val []]) =
    SOk (decl +++ "<Par id=""7"" lang=""en""><note><par id=""7"" lang=""en""><note />a &lt; b</par></note>a &lt; b</Par>").
Proof. split; [allok|]. split; [rootok|]. split; [lasts|vm_compute; reflexivity]. Qed.

Definition C28_flatten_full : Prop :=
  forall x E id v s, all_ok E -> root_ok E id -> Typed E id v -> to_string x E id v = SOk s ->
    exists N, forall fuel, N <= fuel -> from_str x E fuel id s = OOk v.
(** The attributes of an optional flattened field are not written. *)
Definition E_opt_attr : env :=
  [ struct_ "S" ya0 [fldA "f" (a_flatten ya0) (TOpt (BUser 1))];
    struct_ "F" ya0 [fldA "a" (a_attr ya0) (TOpt (BSimple SString)); fld "b" tstr] ].
Theorem C28_flatten_attribute_refuted : ~ C28_flatten_full.
Proof.
  intros H. specialize (H x0 E_opt_attr 0 (VRec [VOpt (Some (VRec [VOpt (Some (VStr "x")); VStr "y"]))]) (decl +++ "<S><b>y</b></S>")
                          ltac:(allok) ltac:(rootok) ltac:(typed) ltac:(vm_compute; reflexivity)).
  apply (answers _ _ _ _ fuel (OOk (VRec [VOpt (Some (VRec [VOpt None; VStr "y"]))]))) in H; [discriminate|vm_compute; reflexivity|discriminate].
Qed.
Print Assumptions C28_flatten_attribute_refuted.
(** [None] is read as [Some] of a struct without required fields. *)
Definition E_opt_all : env :=
  [ struct_ "S" ya0 [fldA "f" (a_flatten ya0) (TOpt (BUser 1))];
    struct_ "F" ya0 [fld "b" (TOpt (BSimple SString))] ].
Theorem C28_flatten_none_refuted : ~ C28_flatten_full.
Proof.
  intros H. specialize (H x0 E_opt_all 0 (VRec [VOpt None]) (decl +++ "<S />")
                          ltac:(allok) ltac:(rootok) ltac:(typed) ltac:(vm_compute; reflexivity)).
  apply (answers _ _ _ _ fuel (OOk (VRec [VOpt (Some (VRec [VOpt None]))]))) in H; [discriminate|vm_compute; reflexivity|discriminate].
Qed.
Print Assumptions C28_flatten_none_refuted.
(** Two flattened fields of one type both take what either of them wrote. *)
Definition E_twice : env :=
  [ struct_ "S" ya0 [fldA "f" (a_flatten ya0) (tuser 1); fldA "g" (a_flatten ya0) (tuser 1)];
    struct_ "F" ya0 [fld "b" tstr] ].
Theorem C28_flatten_shared_refuted : ~ C28_flatten_full.
Proof.
  intros H. specialize (H x0 E_twice 0 (VRec [VRec [VStr "x"]; VRec [VStr "y"]]) (decl +++ "<S><b>x</b><b>y</b></S>")
                          ltac:(allok) ltac:(rootok) ltac:(typed) ltac:(vm_compute; reflexivity)).
  apply (answers _ _ _ _ fuel (OOk (VRec [VRec [VStr "y"]; VRec [VStr "y"]]))) in H; [discriminate|vm_compute; reflexivity|discriminate].
Qed.
Print Assumptions C28_flatten_shared_refuted.
