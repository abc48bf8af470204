(** * Round-trip properties: C26-C29, C31-C33, C35-C37.

    Vocabulary: SpecRound.v ([supported], [rootable], [Survives], ...) and
    SpecOut.v ([wellformed], [alike], [bones], ...). *)
From Verif Require Import Str Num Xml XmlText Reader Schema De Ser Conform SpecTree SpecText SpecNum SpecTyped SpecStruct SpecSer SpecValue
  SpecEnc SpecRound SpecOut OutBones OutTexts FuelProofs RoundReads RoundText RoundCheck IndentProofs OutCheck SerProofs MatchProofs PropertiesStruct PropertiesSer.
Open Scope list_scope.

Ltac supp := apply supportedb_ok; vm_compute; reflexivity.
Ltac root := apply rootableb_ok; vm_compute; reflexivity.
Ltac surv := match goal with |- Survives ?x ?E _ _ _ => apply (survivesb_ok x E 20); vm_compute; reflexivity end.
Ltac fsurv := match goal with |- FieldSurvives ?x ?E _ _ _ _ =>
  apply (fieldb_ok x E (survivesb x E 20) (survivesb_ok x E 20)); vm_compute; reflexivity end.
Ltac wform := apply wellformedb_ok; vm_compute; reflexivity.
Ltac wtypes := apply (writable_typesb_ok _ 9); vm_compute; reflexivity.
Ltac typed := match goal with |- Typed ?E _ _ => apply (typedb_ok E 20); vm_compute; reflexivity end.
Ltac white := let H := fresh in intros ? H; cbn in H; first [discriminate|injection H as <-; reflexivity].

(** ** C26: names *)

(** A field with a prefix: the name written for it resolves, by the namespaces
    on the struct's own element, to what the reader looks for. *)
Theorem C26_prefixed :
  forall x E id td fs o vs n a m body f p u,
    struct_type E id td fs -> ya_flatten (t_attrs td) = false -> unambiguous (t_attrs td) ->
    Written x E id o (VRec vs) (WStart n a m :: body) -> In f fs ->
    ya_prefix (f_attrs f) = Some p -> ns_get (ya_namespaces (t_attrs td)) p = Some u ->
    identifier p -> identifier (field_name f) ->
    resolve m (qname (field_qname (t_attrs td) f)) = flabel (t_attrs td) f.
Proof. exact name_prefixed. Qed.
Print Assumptions C26_prefixed.

(** Without a prefix: unless a default namespace is in use. *)
Theorem C26_bare_partial :
  forall x E id td fs o vs n a m body f,
    struct_type E id td fs -> ya_flatten (t_attrs td) = false -> flattens fs = false ->
    Written x E id o (VRec vs) (WStart n a m :: body) -> In f fs ->
    ya_prefix (f_attrs f) = None -> (forall u, ~ In ("", u) (own_bindings (t_attrs td))) -> identifier (field_name f) ->
    resolve m (qname (field_qname (t_attrs td) f)) = flabel (t_attrs td) f.
Proof. exact name_bare. Qed.
Print Assumptions C26_bare_partial.

(** Anywhere in a document whose other bindings come from the types as well. *)
Theorem C26_in_scope_partial :
  forall x E id td fs o vs n a m body f st,
    consistent E -> struct_type E id td fs -> ya_flatten (t_attrs td) = false -> flattens fs = false ->
    (forall s p u, In s st -> In (p, u) s -> In (p, u) (bindings E)) ->
    Written x E id o (VRec vs) (WStart n a m :: body) -> In f fs ->
    prefix_fine E (t_attrs td) (ya_prefix (f_attrs f)) -> identifier (field_name f) ->
    elabel (rname (declare st m :: st) (qname (field_qname (t_attrs td) f))) = flabel (t_attrs td) f.
Proof. exact name_scope. Qed.
Print Assumptions C26_in_scope_partial.

(** What the reader looks for: in the generated [match] an element belongs to
    the first element field with its namespace and local name. *)
Theorem C26_matched :
  forall ra fs n i f,
    find_field ra fs 0 (opt_default "" (n_ns n)) (n_local n) = Some (i, f) <->
    first_labelled ra fs i f /\ elabel n = flabel ra f.
Proof. exact matched_field. Qed.
Print Assumptions C26_matched.

Example C26_case_matched :
  find_field (t_attrs book_ns) [fldA "title" (a_prefix "ns" ya0) tstr; fldA "title" (a_prefix "ns2" ya0) tstr] 0 "u2" "title" =
    Some (1, fldA "title" (a_prefix "ns2" ya0) tstr) /\
  find_field (t_attrs book_ns) [fldA "title" (a_prefix "ns" ya0) tstr; fldA "title" (a_prefix "ns2" ya0) tstr] 0 "" "title" = None.
Proof. split; reflexivity. Qed.

(** The default namespace is written for [item]. *)
Example C26_case : exists a m body,
  Written x0 [tt_] 0 None (VRec [VStr "something"]) (WStart (nm "tt") a m :: body) /\
  ns_get (ya_namespaces (t_attrs tt_)) "TTML" = Some "t" /\ unambiguous (t_attrs tt_) /\
  field_qname (t_attrs tt_) (fldA "item" (a_prefix "TTML" ya0) tstr) = "item" /\
  flabel (t_attrs tt_) (fldA "item" (a_prefix "TTML" ya0) tstr) = ("t", "item").
Proof.
  do 3 eexists. split; [apply events_written; vm_compute; reflexivity|]. split; [reflexivity|]. split; [|split; reflexivity].
  intros p u u' [H|[H|[]]] [H'|[H'|[]]]; vm_compute in H, H'; congruence.
Qed.
Example C26_case_prefixed : exists a m body,
  Written x0 [book_ns] 0 None (VRec [VStr "A"; VStr "T"]) (WStart (Name "book" None (Some "ns")) a m :: body) /\
  m = [("ns", "u1"); ("ns2", "u2")] /\
  field_qname (t_attrs book_ns) (fldA "title" (a_prefix "ns2" ya0) tstr) = "ns2:title" /\
  flabel (t_attrs book_ns) (fldA "title" (a_prefix "ns2" ya0) tstr) = ("u2", "title").
Proof. do 3 eexists. split; [apply events_written; vm_compute; reflexivity|]. split; [|split]; reflexivity. Qed.

(** A field without prefix of a struct with a default namespace is written in
    that namespace but looked for in none. *)
Definition C26_full : Prop :=
  forall x E id td fs o vs n a m body f,
    wellformed E -> struct_type E id td fs -> Written x E id o (VRec vs) (WStart n a m :: body) ->
    In f fs -> elem_field f ->
    resolve m (qname (field_qname (t_attrs td) f)) = flabel (t_attrs td) f.
Definition dns_struct := struct_ "S" (a_prefix "p" (a_dns "p" (a_ns [("p", "u")] ya0))) [fld "x" tstr].
Theorem C26_refuted : ~ C26_full.
Proof.
  intros H.
  assert (Hw : Written x0 [dns_struct] 0 None (VRec [VStr "a"])
                 [WStart (nm "S") [] [("", "u")]; WStart (nm "x") [] []; WChars "a"; WEnd None; WEnd None])
    by (apply events_written; vm_compute; reflexivity).
  specialize (H x0 [dns_struct] 0 dns_struct [fld "x" tstr] None [VStr "a"] _ _ _ _ (fld "x" tstr)
                ltac:(wform) ltac:(split; reflexivity) Hw (or_introl eq_refl) ltac:(split; reflexivity)).
  vm_compute in H. discriminate.
Qed.
Print Assumptions C26_refuted.
(** The consequence: such a struct can not read its own output. *)
Example C26_consequence : exists s, to_string x0 [dns_struct] 0 (VRec [VStr "a"]) = SOk s /\
  from_str x0 [dns_struct] fuel 0 s = OErr "x is a required field of S".
Proof. eexists. split; [vm_compute; reflexivity|vm_compute; reflexivity]. Qed.

(** ** C27: events *)
Theorem C27_events_partial :
  forall x E id v l, supported E -> rootable E id -> Survives x E false id v ->
    ser_events x E id v = SOk l ->
    exists w, l = wtree w /\ is_elem w /\
      exists N, forall fuel, N <= fuel ->
        from_events x E fuel id (Stream (EStartDoc :: flat (reread [] w)) FEnd) = OOk v.
Proof. exact round_events. Qed.
Print Assumptions C27_events_partial.

Example C27_case :
  supported EP /\ rootable EP 0 /\ Survives x0 EP false 0 (annV ["x"; "y"] (Some pageV)).
Proof.
  split; [supp|]. split; [root|]. surv.
Qed.
(** Mutually recursive structs, and a struct containing itself. *)
Definition E_ab := [struct_ "A" ya0 [fld "value" tstr; fld "b" (TVec (BUser 1))]; struct_ "B" ya0 [fld "c" (TVec (BUser 0))]].
Example C27_case_mutual :
  supported E_ab /\ rootable E_ab 0 /\
  Survives x0 E_ab false 0 (VRec [VStr "r"; VVec [VRec [VVec [VRec [VStr "s"; VVec []]; VRec [VStr "t"; VVec [VRec [VVec []]]]]]]]).
Proof. split; [supp|]. split; [root|]. surv. Qed.
Definition E_child := [struct_ "child" ya0 [fld "value" tstr; fld "child" (TVec (BUser 0))]].
Example C27_case_recursive :
  supported E_child /\ rootable E_child 0 /\
  Survives x0 E_child false 0 (VRec [VStr "r"; VVec [VRec [VStr "s"; VVec [VRec [VStr "u"; VVec []]]]; VRec [VStr "t"; VVec []]]]).
Proof. split; [supp|]. split; [root|]. surv. Qed.

(** A recursive struct whose element name is that of its own recursive field
    can not be told from that field. *)
Definition C27_full : Prop :=
  forall x E id td fs vs l,
    wellformed E -> serializable E -> struct_type E id td fs -> Typed E id (VRec vs) ->
    (forall s, InValue s (VRec vs) -> clean s) -> ser_events x E id (VRec vs) = SOk l ->
    exists w, l = wtree w /\ is_elem w /\
      exists N, forall fuel, N <= fuel ->
        from_events x E fuel id (Stream (EStartDoc :: flat (reread [] w)) FEnd) = OOk (VRec vs).
Definition E_rec := [struct_ "Node" ya0 [fld "child" (TVec (BUser 0)); fld "leaf" (TOpt (BUser 1))];
                     struct_ "Leaf" ya0 [fldA "x" (a_attr ya0) (TOpt (BSimple SString))]].
Definition recV := [VVec [VRec [VVec []; VOpt (Some (VRec [VOpt (Some (VStr "b"))]))]]; VOpt None].
Theorem C27_refuted : ~ C27_full.
Proof.
  intros H.
  pose (w := WElem (nm "Node") [] [] [WElem (nm "child") [] [] [WElem (nm "leaf") [at1 "x" "b"] [] []]]).
  specialize (H x0 E_rec 0 (struct_ "Node" ya0 [fld "child" (TVec (BUser 0)); fld "leaf" (TOpt (BUser 1))])
                [fld "child" (TVec (BUser 0)); fld "leaf" (TOpt (BUser 1))] recV (wtree w)).
  destruct H as (w' & Hw & He & N & HN).
  - wform.
  - intros id td Hid. destruct id as [|[|id]]; [| |destruct id; discriminate]; injection Hid as <-; cbn [t_body struct_];
      intros f Hf; repeat (destruct Hf as [<-|Hf]; [cbn; try discriminate; intros; discriminate|]); destruct Hf.
  - split; reflexivity.
  - typed.
  - intros s Hs. apply cleanb_ok, (all_stringsb_ok cleanb s _ Hs). vm_compute. reflexivity.
  - vm_compute. reflexivity.
  - apply wtree_one in Hw; [|exact I|exact He]. subst w'.
    pose (st := Stream (EStartDoc :: flat (reread [] w)) FEnd).
    assert (Hv : from_events x0 E_rec fuel 0 st = OOk (VRec [VVec [VRec [VVec [VRec [VVec []; VOpt None]]; VOpt None]]; VOpt None]))
      by (vm_compute; reflexivity).
    specialize (HN (Nat.max N fuel) (Nat.le_max_l _ _)). fold st in HN.
    rewrite (fuel_more x0 E_rec 0 st fuel (Nat.max N fuel) (Nat.le_max_r _ _)) in HN; [|rewrite Hv; discriminate].
    rewrite Hv in HN. discriminate.
Qed.
Print Assumptions C27_refuted.

(** ** C28: text *)
Theorem C28_text_partial :
  forall x E c id v s, supported E -> rootable E id -> Survives x E false id v -> white_indent c ->
    to_string_with_config x E c id v = SOk s ->
    exists N, forall fuel, N <= fuel -> from_str x E fuel id s = OOk v.
Proof. exact round_text. Qed.
Print Assumptions C28_text_partial.

(** Every well-typed value is written. *)
Theorem C28_written : forall x E c id v, serializable E -> Typed E id v -> exists s, to_string_with_config x E c id v = SOk s.
Proof. exact written_text. Qed.
Print Assumptions C28_written.

(** Namespaces, attributes and markup characters in texts. *)
Example C28_case :
  supported [book_ns] /\ rootable [book_ns] 0 /\ Survives x0 [book_ns] false 0 (VRec [VStr "A & B"; VStr "<T>"]) /\
  to_string x0 [book_ns] 0 (VRec [VStr "A & B"; VStr "<T>"]) =
    SOk (decl +++ "<ns:book xmlns:ns=""u1"" xmlns:ns2=""u2""><ns:author>A &amp; B</ns:author><ns2:title>&lt;T&gt;</ns2:title></ns:book>").
Proof. split; [supp|]. split; [root|]. split; [surv|vm_compute; reflexivity]. Qed.
Example C28_case_enum :
  supported E_enum /\ rootable E_enum 0 /\
  Survives x0 E_enum false 0 (VRec [VVar 8 [VVec [VRec [VInt 12; VInt 23]; VRec [VInt (-12); VInt 0]]]]).
Proof. split; [supp|]. split; [root|]. surv. Qed.

Definition C28_full : Prop :=
  forall x E id v s, supported E -> rootable E id -> Typed E id v -> to_string x E id v = SOk s ->
    exists N, forall fuel, N <= fuel -> from_str x E fuel id s = OOk v.
(** An empty String is not found again. *)
Theorem C28_empty_refuted : ~ C28_full.
Proof.
  intros H. specialize (H x0 [book] 0 (VRec [VStr ""; VStr "T"]) (decl +++ "<book><author></author><title>T</title></book>")
                          ltac:(supp) ltac:(root) ltac:(typed) ltac:(vm_compute; reflexivity)).
  apply (answers _ _ _ _ fuel (OErr "author is a required field of Book")) in H; [discriminate|vm_compute; reflexivity|discriminate].
Qed.
Print Assumptions C28_empty_refuted.
(** Outer white space is lost. *)
Theorem C28_space_refuted : ~ C28_full.
Proof.
  intros H. specialize (H x0 [book] 0 (VRec [VStr " A "; VStr "T"]) (decl +++ "<book><author> A </author><title>T</title></book>")
                          ltac:(supp) ltac:(root) ltac:(typed) ltac:(vm_compute; reflexivity)).
  apply (answers _ _ _ _ fuel (OOk (VRec [VStr "A"; VStr "T"]))) in H; [discriminate|vm_compute; reflexivity|discriminate].
Qed.
Print Assumptions C28_space_refuted.
(** [Some("")] is read as [None]; a tab in an attribute becomes a space. *)
Definition opt_tab := struct_ "S" ya0 [fld "o" (TOpt (BSimple SString)); fldA "a" (a_attr ya0) tstr].
Theorem C28_option_refuted : ~ C28_full.
Proof.
  intros H. specialize (H x0 [opt_tab] 0 (VRec [VOpt (Some (VStr "")); VStr "b"]) (decl +++ "<S a=""b""><o></o></S>")
                          ltac:(supp) ltac:(root) ltac:(typed) ltac:(vm_compute; reflexivity)).
  apply (answers _ _ _ _ fuel (OOk (VRec [VOpt None; VStr "b"]))) in H; [discriminate|vm_compute; reflexivity|discriminate].
Qed.
Print Assumptions C28_option_refuted.
Theorem C28_tab_refuted : ~ C28_full.
Proof.
  intros H. pose (t := String "a" (String "009" "b")).
  specialize (H x0 [opt_tab] 0 (VRec [VOpt None; VStr t]) (decl +++ "<S a=""" +++ t +++ """ />")
                          ltac:(supp) ltac:(root) ltac:(typed) ltac:(vm_compute; reflexivity)).
  apply (answers _ _ _ _ fuel (OOk (VRec [VOpt None; VStr "a b"]))) in H; [discriminate|vm_compute; reflexivity|discriminate].
Qed.
Print Assumptions C28_tab_refuted.

(** ** C29: enums *)
Theorem C29_enum_field_partial :
  forall x E c id td fs vs i f e te vars d k vr args s,
    supported E -> rootable E id -> struct_type E id td fs -> others_survive x E fs vs i ->
    nth_error fs i = Some f -> nth_error vs i = Some (VVar k args) -> plain_element f ->
    ~ suppressed x (VRec vs) f (VVar k args) -> f_ty f = TBase (BUser e) ->
    nth_error E e = Some te -> t_body te = DEnum vars d -> ya_tag (t_attrs te) = None -> first_variant vars k vr ->
    (v_body vr = VbUnit /\ args = [] /\ bare_variant (t_attrs te) vr /\ clean (variant_name vr) \/
     exists t w, v_body vr = VbNew false t /\ args = [w] /\ ya_flatten (v_attrs vr) = false /\ PayloadSurvives x E d k t w) ->
    white_indent c -> to_string_with_config x E c id (VRec vs) = SOk s ->
    exists N, forall fuel, N <= fuel -> from_str x E fuel id s = OOk (VRec vs).
Proof. exact round_enum. Qed.
Print Assumptions C29_enum_field_partial.

(** All kinds of payload of tests/enum.rs. *)
Definition payload_cases : list value :=
  [VVar 0 []; VVar 1 [VStr "some_text"]; VVar 1 [VStr ""]; VVar 2 [VInt 56]; VVar 3 [VRec [VInt 24; VInt 42]];
   VVar 4 [VOpt (Some (VStr "x"))]; VVar 5 [VOpt (Some (VRec [VInt 1; VInt 2]))]; VVar 6 [VVec [VStr "abc"; VStr "def"]];
   VVar 7 [VVec [VInt 23; VInt 45]]; VVar 8 [VVec [VRec [VInt 1; VInt 2]; VRec [VInt 3; VInt 4]]]; VVar 9 [VInt 87]].
Example C29_cases :
  supported E_enum /\ rootable E_enum 0 /\ forall v, In v payload_cases -> Survives x0 E_enum false 0 (VRec [v]).
Proof.
  split; [supp|]. split; [root|]. intros v Hv. repeat (destruct Hv as [<-|Hv]; [surv|]). destruct Hv.
Qed.
Example C29_case :
  others_survive x0 E_enum [fld "color" (tuser 1)] [VVar 7 [VVec [VInt 23; VInt 45]]] 0 /\
  first_variant [vunit "Simple"; vnew "Field" tstr; vnew "Integer" (tint I32); vnew "UserStruct" (tuser 2);
     vnew "OptionString" (TOpt (BSimple SString)); vnew "OptionUserStruct" (TOpt (BUser 2));
     vnew "Strings" (TVec (BSimple SString)); vnew "Ints" (TVec (BSimple (SInt I32)));
     vnew "Structs" (TVec (BUser 2)); Variant "ToRename" (a_rename "renamed" ya0) (VbNew false (tint U32))] 7 (vnew "Ints" (TVec (BSimple (SInt I32)))) /\
  PayloadSurvives x0 E_enum (VVar 0 []) 7 (TVec (BSimple (SInt I32))) (VVec [VInt 23; VInt 45]) /\
  to_string x0 E_enum 0 (VRec [VVar 7 [VVec [VInt 23; VInt 45]]]) = SOk (decl +++ "<base><color><Ints>23</Ints><Ints>45</Ints></color></base>").
Proof.
  split; [|split; [|split]].
  - split; [reflexivity|]. intros [|j] f v Hj Hf Hv; [contradiction|destruct j; discriminate].
  - apply first_variantb_ok; [reflexivity|vm_compute; reflexivity].
  - apply (payloadb_ok x0 E_enum (survivesb x0 E_enum 20) (survivesb_ok x0 E_enum 20)). vm_compute. reflexivity.
  - vm_compute. reflexivity.
Qed.

(** Empty payloads and struct-like variants read as the default; a variant
    with a prefix is not recognised. *)
Definition C29_full : Prop :=
  forall x E id td f e te vars d k args s,
    supported E -> rootable E id -> struct_type E id td [f] -> plain_element f -> f_ty f = TBase (BUser e) ->
    nth_error E e = Some te -> t_body te = DEnum vars d -> Typed E id (VRec [VVar k args]) ->
    (forall t, InValue t (VVar k args) -> clean t) ->
    to_string x E id (VRec [VVar k args]) = SOk s ->
    exists N, forall fuel, N <= fuel -> from_str x E fuel id s = OOk (VRec [VVar k args]).
Definition lossy := enum_ "En" (a_ns [("p", "u")] ya0)
  [vunit "A"; vnew "B" (TOpt (BSimple SString)); vnew "C" (TVec (BSimple (SInt I32)));
   Variant "D" ya0 (VbNamed [fld "x" (tint I32)]); Variant "F" (a_prefix "p" ya0) VbUnit] (VVar 0 []).
Definition E_lossy := [struct_ "S" ya0 [fld "e" (tuser 1)]; lossy].
Lemma C29_witness : forall k args s, Typed E_lossy 0 (VRec [VVar k args]) -> all_stringsb cleanb (VVar k args) = true ->
  to_string x0 E_lossy 0 (VRec [VVar k args]) = SOk s -> from_str x0 E_lossy fuel 0 s = OOk (VRec [VVar 0 []]) ->
  VVar k args <> VVar 0 [] -> ~ C29_full.
Proof.
  intros k args s Ht Hc Hs Hr Hne H.
  specialize (H x0 E_lossy 0 (struct_ "S" ya0 [fld "e" (tuser 1)]) (fld "e" (tuser 1)) 1 lossy _ (VVar 0 []) k args s
                ltac:(supp) ltac:(root) ltac:(split; reflexivity) ltac:(repeat split) eq_refl eq_refl eq_refl Ht
                (fun t Hi => cleanb_ok _ (all_stringsb_ok cleanb t _ Hi Hc)) Hs).
  apply (answers _ _ _ _ fuel _ _ Hr) in H; [|discriminate]. congruence.
Qed.
Theorem C29_none_refuted : ~ C29_full.
Proof. apply (C29_witness 1 [VOpt None] (decl +++ "<S><e xmlns:p=""u"" /></S>")); [typed|vm_compute; reflexivity..|discriminate]. Qed.
Theorem C29_empty_refuted : ~ C29_full.
Proof. apply (C29_witness 2 [VVec []] (decl +++ "<S><e xmlns:p=""u"" /></S>")); [typed|vm_compute; reflexivity..|discriminate]. Qed.
Theorem C29_struct_like_refuted : ~ C29_full.
Proof. apply (C29_witness 3 [VInt 4] (decl +++ "<S><e xmlns:p=""u""><x>4</x></e></S>")); [typed|vm_compute; reflexivity..|discriminate]. Qed.
Theorem C29_prefix_refuted : ~ C29_full.
Proof. apply (C29_witness 4 [] (decl +++ "<S><e xmlns:p=""u"">p:F</e></S>")); [typed|vm_compute; reflexivity..|discriminate]. Qed.
Print Assumptions C29_none_refuted.
Print Assumptions C29_empty_refuted.
Print Assumptions C29_struct_like_refuted.
Print Assumptions C29_prefix_refuted.

(** Payloads of tagged enums are written into the tagged element and looked
    for in its place: <e type="C"><C>h</C></e> is read as the default, and
    <e type="D"><D><x>1</x></D></e> is an error. *)
Definition E_tagged := [struct_ "S" ya0 [fld "e" (tuser 1)];
  enum_ "En" (a_tag "type" ya0) [vunit "A"; vnew "C" tstr; vnew "D" (tuser 2)] (VVar 0 []); struct_ "P" ya0 [fld "x" (tint I32)]].
Lemma C29_tagged_witness : forall k args s r, Typed E_tagged 0 (VRec [VVar k args]) -> all_stringsb cleanb (VVar k args) = true ->
  to_string x0 E_tagged 0 (VRec [VVar k args]) = SOk s -> from_str x0 E_tagged fuel 0 s = r -> r <> OFuel ->
  r <> OOk (VRec [VVar k args]) -> ~ C29_full.
Proof.
  intros k args s r Ht Hc Hs Hr Hf Hne H.
  specialize (H x0 E_tagged 0 (struct_ "S" ya0 [fld "e" (tuser 1)]) (fld "e" (tuser 1)) 1 (nth 1 E_tagged lossy) _ (VVar 0 []) k args s
                ltac:(supp) ltac:(root) ltac:(split; reflexivity) ltac:(repeat split) eq_refl eq_refl eq_refl Ht
                (fun t Hi => cleanb_ok _ (all_stringsb_ok cleanb t _ Hi Hc)) Hs).
  apply (answers _ _ _ _ fuel _ _ Hr) in H; [|exact Hf]. congruence.
Qed.
Theorem C29_tagged_text_refuted : ~ C29_full.
Proof.
  apply (C29_tagged_witness 1 [VStr "h"] (decl +++ "<S><e type=""C""><C>h</C></e></S>") (OOk (VRec [VVar 0 []])));
    [typed|vm_compute; reflexivity..|discriminate|discriminate].
Qed.
Theorem C29_tagged_struct_refuted : ~ C29_full.
Proof.
  apply (C29_tagged_witness 2 [VRec [VInt 1]] (decl +++ "<S><e type=""D""><D><x>1</x></D></e></S>") (OErr "x is a required field of P"));
    [typed|vm_compute; reflexivity..|discriminate|discriminate].
Qed.
Print Assumptions C29_tagged_text_refuted.
Print Assumptions C29_tagged_struct_refuted.

(** ** C31: tagged enums *)
Theorem C31_written :
  forall x E id td vars d tg i vr o,
    nth_error E id = Some td -> t_body td = DEnum vars d -> ya_tag (t_attrs td) = Some tg -> ya_flatten (t_attrs td) = false ->
    nth_error vars i = Some vr -> v_body vr = VbUnit ->
    exists m, Written x E id o (VVar i [])
      [WStart (qname (match o with Some q => q | None => ser_root td end)) [Attr (Name tg None None) (variant_name vr)] m; WEnd None].
Proof. exact tagged_written. Qed.
Print Assumptions C31_written.

Theorem C31_round_trip_partial :
  forall x E c id td vars d tg i vr s,
    supported E -> rootable E id ->
    nth_error E id = Some td -> t_body td = DEnum vars d -> ya_tag (t_attrs td) = Some tg ->
    first_variant vars i vr -> v_body vr = VbUnit -> legal_attr (variant_name vr) = true -> white_indent c ->
    to_string_with_config x E c id (VVar i []) = SOk s ->
    exists N, forall fuel, N <= fuel -> from_str x E fuel id s = OOk (VVar i []).
Proof. exact round_tagged. Qed.
Print Assumptions C31_round_trip_partial.

(** The same for a field of a struct. *)
Theorem C31_field_partial :
  forall x E c id td fs vs j f e te vars d tg i vr s,
    supported E -> rootable E id -> struct_type E id td fs -> others_survive x E fs vs j ->
    nth_error fs j = Some f -> nth_error vs j = Some (VVar i []) -> plain_element f ->
    ~ suppressed x (VRec vs) f (VVar i []) -> f_ty f = TBase (BUser e) ->
    nth_error E e = Some te -> t_body te = DEnum vars d -> ya_tag (t_attrs te) = Some tg ->
    first_variant vars i vr -> v_body vr = VbUnit -> legal_attr (variant_name vr) = true -> white_indent c ->
    to_string_with_config x E c id (VRec vs) = SOk s ->
    exists N, forall fuel, N <= fuel -> from_str x E fuel id s = OOk (VRec vs).
Proof. exact round_tagged_field. Qed.
Print Assumptions C31_field_partial.

Definition shade := enum_ "Shade" (a_rename "shade" (a_tag "kind" ya0)) [vunit "Dark"; Variant "Light" (a_rename "pale <&> """ ya0) VbUnit] (VVar 0 []).
Example C31_case :
  supported [shade] /\ rootable [shade] 0 /\
  first_variant [vunit "Dark"; Variant "Light" (a_rename "pale <&> """ ya0) VbUnit] 1 (Variant "Light" (a_rename "pale <&> """ ya0) VbUnit) /\
  to_string x0 [shade] 0 (VVar 1 []) = SOk (decl +++ "<shade kind=""pale &lt;&amp;&gt; &quot;"" />").
Proof.
  split; [supp|]. split; [root|]. split; [apply first_variantb_ok; [reflexivity|vm_compute; reflexivity]|vm_compute; reflexivity].
Qed.

(** With a default namespace the element is rejected. *)
Definition C31_full : Prop :=
  forall x E id td vars d tg i s,
    wellformed E -> nth_error E id = Some td -> t_body td = DEnum vars d -> ya_tag (t_attrs td) = Some tg ->
    (forall v, In v vars -> v_body v = VbUnit) -> NoDup (map variant_name vars) -> Typed E id (VVar i []) ->
    to_string x E id (VVar i []) = SOk s ->
    exists N, forall fuel, N <= fuel -> from_str x E fuel id s = OOk (VVar i []).
Definition shade_ns := enum_ "Shade" (a_dns "p" (a_ns [("p", "u")] (a_tag "kind" ya0))) [vunit "Dark"; vunit "Light"] (VVar 0 []).
Theorem C31_refuted : ~ C31_full.
Proof.
  intros H. specialize (H x0 [shade_ns] 0 shade_ns [vunit "Dark"; vunit "Light"] (VVar 0 []) "kind" 1 (decl +++ "<Shade xmlns=""u"" kind=""Light"" />")
    ltac:(wform) eq_refl eq_refl eq_refl).
  apply (answers _ _ _ _ fuel (OErr "bad namespace for Shade, found u")) in H; [discriminate|vm_compute; reflexivity|discriminate|..].
  - intros v [<-|[<-|[]]]; reflexivity.
  - repeat constructor; cbn; intuition discriminate.
  - typed.
  - vm_compute. reflexivity.
Qed.
Print Assumptions C31_refuted.

(** ** C32: attributes of user type *)

(** Written as the escaped text of the value... *)
Theorem C32_written :
  forall x E id td fs o vs n a m body i f v e w u,
    struct_type E id td fs -> ya_flatten (t_attrs td) = false ->
    Written x E id o (VRec vs) (WStart n a m :: body) -> nth_error fs i = Some f -> nth_error vs i = Some v ->
    ya_attribute (f_attrs f) = true -> ~ unneeded x (VRec vs) f v ->
    (f_ty f = TBase (BUser e) /\ v = w \/ f_ty f = TOpt (BUser e) /\ v = VOpt (Some w)) ->
    type_text x E e w u -> In (Attr (qname (field_qname (t_attrs td) f)) (esc_pcdata u)) a.
Proof. exact attr_written. Qed.
Print Assumptions C32_written.
(** ... which is the text itself if it has no markup characters. *)
Theorem C32_text_partial : forall s, no_markup s = true -> esc_pcdata s = s.
Proof. exact esc_plain. Qed.
Print Assumptions C32_text_partial.

Theorem C32_round_trip_partial :
  forall x E c id td fs vs i f v t w s,
    supported E -> rootable E id -> struct_type E id td fs -> others_survive x E fs vs i ->
    nth_error fs i = Some f -> nth_error vs i = Some v ->
    ya_attribute (f_attrs f) = true -> ~ unneeded x (VRec vs) f v ->
    (f_ty f = TBase t /\ v = w \/ f_ty f = TOpt t /\ v = VOpt (Some w)) -> AttrSurvives x E t w ->
    white_indent c -> to_string_with_config x E c id (VRec vs) = SOk s ->
    exists N, forall fuel, N <= fuel -> from_str x E fuel id s = OOk (VRec vs).
Proof. exact round_attr. Qed.
Print Assumptions C32_round_trip_partial.

Definition E_attr := [struct_ "S" ya0 [fldA "t" (a_attr ya0) (tuser 1); fldA "u" (a_attr ya0) (TOpt (BUser 2))];
                      TypeDef "Title" ya0 (DPrim (PInner SString)); enum_ "U" ya0 [vunit "A"; Variant "B" (a_rename "b & c" ya0) VbUnit] (VVar 0 [])].
Definition attrV := [VStr "x < y"; VOpt (Some (VVar 1 []))].
Example C32_case :
  supported E_attr /\ rootable E_attr 0 /\ Survives x0 E_attr false 0 (VRec attrV) /\
  type_text x0 E_attr 1 (VStr "x < y") "x < y" /\ type_text x0 E_attr 2 (VVar 1 []) "b & c" /\
  AttrSurvives x0 E_attr (BUser 1) (VStr "x < y") /\ AttrSurvives x0 E_attr (BUser 2) (VVar 1 []) /\
  to_string x0 E_attr 0 (VRec attrV) = SOk (decl +++ "<S t=""x &amp;lt; y"" u=""b &amp;amp; c"" />").
Proof.
  split; [supp|]. split; [root|]. split; [surv|]. split; [eapply tt_prim; reflexivity|].
  split; [eapply (tt_unit _ _ 2 _ _ _ 1 (Variant "B" (a_rename "b & c" ya0) VbUnit)); [reflexivity..|left; reflexivity]|].
  split; [apply attrb_ok; vm_compute; reflexivity|]. split; [apply attrb_ok; vm_compute; reflexivity|]. vm_compute. reflexivity.
Qed.

(** Markup characters are escaped twice, so the attribute's value is not the
    text of the value. *)
Definition C32_text_full : Prop :=
  forall x E id td fs o vs n a m body i f e w u,
    wellformed E -> struct_type E id td fs ->
    Written x E id o (VRec vs) (WStart n a m :: body) -> nth_error fs i = Some f -> nth_error vs i = Some w ->
    ya_attribute (f_attrs f) = true -> ~ unneeded x (VRec vs) f w -> f_ty f = TBase (BUser e) ->
    type_text x E e w u -> In (Attr (qname (field_qname (t_attrs td) f)) u) a.
Theorem C32_text_refuted : ~ C32_text_full.
Proof.
  intros H.
  assert (Hw : Written x0 E_attr 0 None (VRec [VStr "x < y"; VOpt None]) [WStart (nm "S") [at1 "t" "x &lt; y"] []; WEnd None])
    by (apply events_written; vm_compute; reflexivity).
  specialize (H x0 E_attr 0 _ _ None _ _ _ _ _ 0 (fldA "t" (a_attr ya0) (tuser 1)) 1 (VStr "x < y") "x < y" ltac:(wform) ltac:(split; reflexivity) Hw
                eq_refl eq_refl eq_refl ltac:(apply unneededb_no; vm_compute; reflexivity) eq_refl ltac:(eapply tt_prim; reflexivity)).
  destruct H as [H|[]]. vm_compute in H. discriminate.
Qed.
Print Assumptions C32_text_refuted.
Definition C32_round_trip_full : Prop :=
  forall x E id td fs vs s,
    supported E -> rootable E id -> struct_type E id td fs -> (forall f, In f fs -> ya_attribute (f_attrs f) = true) ->
    Typed E id (VRec vs) -> to_string x E id (VRec vs) = SOk s ->
    exists N, forall fuel, N <= fuel -> from_str x E fuel id s = OOk (VRec vs).
(** Outer white space is lost, as the value is read from the content of an
    element. *)
Theorem C32_round_trip_refuted : ~ C32_round_trip_full.
Proof.
  intros H. specialize (H x0 E_attr 0 _ _ [VStr " a"; VOpt None] (decl +++ "<S t="" a"" />") ltac:(supp) ltac:(root) ltac:(split; reflexivity)).
  apply (answers _ _ _ _ fuel (OOk (VRec [VStr "a"; VOpt None]))) in H; [discriminate|vm_compute; reflexivity|discriminate|..].
  - intros f [<-|[<-|[]]]; reflexivity.
  - typed.
  - vm_compute. reflexivity.
Qed.
Print Assumptions C32_round_trip_refuted.

(** ** C33: newtypes *)
Theorem C33_newtype_partial :
  forall x E c id td k v s,
    nth_error E id = Some td -> t_body td = DPrim k -> identifier (t_name td) ->
    prim_survives x clean (t_name td) k v -> white_indent c -> to_string_with_config x E c id v = SOk s ->
    exists N, forall fuel, N <= fuel -> from_str x E fuel id s = OOk v.
Proof. exact round_prim. Qed.
Print Assumptions C33_newtype_partial.

(** All integers and booleans. *)
Theorem C33_integer :
  forall x E c id td t z s,
    nth_error E id = Some td -> t_body td = DPrim (PInner (SInt t)) -> identifier (t_name td) -> fits t z ->
    white_indent c -> to_string_with_config x E c id (VInt z) = SOk s ->
    exists N, forall fuel, N <= fuel -> from_str x E fuel id s = OOk (VInt z).
Proof. exact round_integer. Qed.
Print Assumptions C33_integer.
Theorem C33_bool :
  forall x E c id td b s,
    nth_error E id = Some td -> t_body td = DPrim (PInner SBool) -> identifier (t_name td) ->
    white_indent c -> to_string_with_config x E c id (VBool b) = SOk s ->
    exists N, forall fuel, N <= fuel -> from_str x E fuel id s = OOk (VBool b).
Proof. exact round_bool. Qed.
Print Assumptions C33_bool.

Definition E_new := [TypeDef "Count" ya0 (DPrim (PInner (SInt I8))); TypeDef "Flag" ya0 (DPrim (PInner SBool));
                     TypeDef "Bits" ya0 (DPrim (PHex U8 255)); TypeDef "Title" ya0 (DPrim (PInner SString))].
Example C33_cases :
  to_string x0 E_new 0 (VInt (-128)) = SOk (decl +++ "<Count>-128</Count>") /\
  to_string x0 E_new 1 (VBool true) = SOk (decl +++ "<Flag>true</Flag>") /\
  prim_survives x0 clean "Bits" (PHex U8 255) (VInt 9) /\
  to_string x0 E_new 2 (VInt 9) = SOk (decl +++ "<Bits>09</Bits>") /\
  prim_survives x0 clean "Title" (PInner SString) (VStr "a > b").
Proof.
  split; [vm_compute; reflexivity|]. split; [vm_compute; reflexivity|]. split; [|split; [vm_compute; reflexivity|]].
  - split; [lia|reflexivity].
  - left. apply cleanb_ok. vm_compute. reflexivity.
Qed.

Definition C33_full : Prop :=
  forall x E id td k v s,
    nth_error E id = Some td -> t_body td = DPrim k -> identifier (t_name td) -> Typed E id v ->
    to_string x E id v = SOk s -> exists N, forall fuel, N <= fuel -> from_str x E fuel id s = OOk v.
(** Bit flags are written in hexadecimal but read in decimal. *)
Theorem C33_hex_refuted : ~ C33_full.
Proof.
  intros H. specialize (H x0 E_new 2 _ _ (VInt 16) (decl +++ "<Bits>10</Bits>") eq_refl eq_refl ltac:(apply identifierb_ok; vm_compute; reflexivity)
                          ltac:(typed) ltac:(vm_compute; reflexivity)).
  apply (answers _ _ _ _ fuel (OOk (VInt 10))) in H; [discriminate|vm_compute; reflexivity|discriminate].
Qed.
Print Assumptions C33_hex_refuted.
Example C33_hex_error :
  to_string x0 E_new 2 (VInt 10) = SOk (decl +++ "<Bits>0A</Bits>") /\
  from_str x0 E_new fuel 2 "<Bits>0A</Bits>" = OErr "Failed to parse Bitflag integer".
Proof. split; vm_compute; reflexivity. Qed.
Theorem C33_string_refuted : ~ C33_full.
Proof.
  intros H. specialize (H x0 E_new 3 _ _ (VStr " a") (decl +++ "<Title> a</Title>") eq_refl eq_refl ltac:(apply identifierb_ok; vm_compute; reflexivity)
                          ltac:(typed) ltac:(vm_compute; reflexivity)).
  apply (answers _ _ _ _ fuel (OOk (VStr "a"))) in H; [discriminate|vm_compute; reflexivity|discriminate].
Qed.
Print Assumptions C33_string_refuted.

(** ** C35: strings are not markup *)

(** The structure of the written document does not depend on the contents of
    the strings. *)
Theorem C35_structure_partial :
  forall x E c id v v' l,
    plain_strings E -> writable_types E -> own_element E id -> shows_legal x ->
    match ec_indent c with Some ind => all_chars is_ws ind = true | None => True end ->
    (forall s, InValue s v -> legal s = true) -> (forall s, InValue s v' -> legal s = true) -> alike v v' ->
    ser_events x E id v = SOk l ->
    exists l' t t', ser_events x E id v' = SOk l' /\
      parse_text (emit_text c l) = Stream (EStartDoc :: flat t) FEnd /\
      parse_text (emit_text c l') = Stream (EStartDoc :: flat t') FEnd /\ bones t = bones t'.
Proof. exact ser_bones. Qed.
Print Assumptions C35_structure_partial.

(** A String as the content of an element, or as an attribute. *)
Theorem C35_element_partial :
  forall c q s, identifier q -> legal s = true -> white_indent c ->
    parse_text (emit_text (econf_of c) [WStart (qname q) [] []; WChars s; WEnd None]) =
    Stream (EStartDoc :: flat (Elem (Name q None None) [] [] (text_node s))) FEnd.
Proof. exact string_element. Qed.
Print Assumptions C35_element_partial.
Theorem C35_attribute_partial :
  forall c q a s, identifier q -> identifier a -> a <> "xmlns" -> legal s = true -> white_indent c ->
    parse_text (emit_text (econf_of c) [WStart (qname q) [Attr (qname a) s] []; WEnd None]) =
    Stream [EStartDoc; EStart (Name q None None) [Attr (Name a None None) (untab s)] []; EEnd (Name q None None)] FEnd.
Proof. exact string_attribute. Qed.
Print Assumptions C35_attribute_partial.

Definition evil := "</name><name a='1'>""<![CDATA[ & ]]> --> <?x ?>".
Definition memo := struct_ "Memo" ya0
  [fldA "id" (a_attr ya0) tstr; fld "name" tstr; fld "tag" (TVec (BSimple SString)); fld "page" (TOpt (BUser 1));
   fldA "note" (a_text ya0) (TOpt (BSimple SString))].
Definition memoV (s : string) := VRec [VStr s; VStr s; VVec [VStr s; VStr "y"]; VOpt (Some (VRec [VInt 40; VStr s])); VOpt (Some (VStr s))].
Example C35_case :
  plain_strings [memo; page] /\ writable_types [memo; page] /\ own_element [memo; page] 0 /\ shows_legal x0 /\
  legal evil = true /\ alike (memoV "Ann") (memoV evil) /\
  (forall s, InValue s (memoV evil) -> legal s = true) /\
  exists l, ser_events x0 [memo; page] 0 (memoV evil) = SOk l.
Proof.
  split; [apply plain_stringsb_ok; vm_compute; reflexivity|]. split; [wtypes|]. split; [apply own_elementb_ok; reflexivity|].
  split; [split; [reflexivity|intros; apply show_Z_legal]|]. split; [vm_compute; reflexivity|].
  split; [|split].
  - unfold memoV. apply al_rec. constructor; [apply al_str|]. constructor; [apply al_str|].
    constructor; [apply al_vec; repeat constructor|]. constructor; [apply al_opt, al_rec; constructor; [apply al_same|repeat constructor]|].
    constructor; [apply al_opt, al_str|constructor].
  - intros s Hs. apply (all_stringsb_ok legal s _ Hs). vm_compute. reflexivity.
  - eexists. vm_compute. reflexivity.
Qed.
(** Flattened fields: a struct whose attribute and namespace come to the start
    tag, an enum whose tag does, an optional struct, and repeated enums. *)
Definition E_bill := [struct_ "Bill" ya0
    [fldA "id" (a_attr ya0) tstr; fldA "head" (a_flatten ya0) (tuser 1); fldA "kind" (a_flatten ya0) (tuser 2);
     fldA "more" (a_flatten ya0) (TOpt (BUser 4)); fldA "line" (a_flatten ya0) (TVec (BUser 3))];
  struct_ "Head" (a_ns [("h", "u")] ya0) [fldA "lang" (a_attr (a_prefix "h" ya0)) tstr; fldA "title" (a_prefix "h" ya0) tstr];
  enum_ "Kind" (a_tag "kind" ya0) [vunit "Plain"; vunit "Big"] (VVar 0 []);
  enum_ "Line" ya0 [vnew "Item" tstr; vnew "Sub" (tuser 4)] (VVar 0 [VStr ""]);
  struct_ "More" ya0 [fld "note" tstr]].
Definition billV (s : string) := VRec [VStr s; VRec [VStr s; VStr s]; VVar 1 []; VOpt (Some (VRec [VStr s]));
  VVec [VVar 0 [VStr s]; VVar 1 [VRec [VStr s]]]].
Example C35_flat_case :
  plain_strings E_bill /\ writable_types E_bill /\ own_element E_bill 0 /\ alike (billV "Ann") (billV evil) /\
  (forall s, InValue s (billV evil) -> legal s = true) /\
  to_string x0 E_bill 0 (billV "<") = SOk (decl +++ "<Bill xmlns:h=""u"" id=""&lt;"" h:lang=""&lt;"" kind=""Big""><h:title>&lt;</h:title><note>&lt;</note><Item>&lt;</Item><Sub><note>&lt;</note></Sub></Bill>").
Proof.
  split; [apply plain_stringsb_ok; vm_compute; reflexivity|]. split; [wtypes|]. split; [apply own_elementb_ok; reflexivity|].
  split; [|split; [|vm_compute; reflexivity]].
  - unfold billV. repeat first [apply al_rec|apply al_opt|apply al_vec|apply al_var|apply al_str|constructor].
  - intros s Hs. apply (all_stringsb_ok legal s _ Hs). vm_compute. reflexivity.
Qed.

(** Control characters give an unreadable document. *)
Definition C35_full : Prop :=
  forall c q s, identifier q -> exists kids,
    parse_text (emit_text (econf_of c) [WStart (qname q) [] []; WChars s; WEnd None]) =
    Stream (EStartDoc :: flat (Elem (Name q None None) [] [] kids)) FEnd.
Theorem C35_control_refuted : ~ C35_full.
Proof.
  intros H. destruct (H config0 "a" (String "001" "") ltac:(apply identifierb_ok; vm_compute; reflexivity)) as [kids Hk].
  vm_compute in Hk. discriminate.
Qed.
Print Assumptions C35_control_refuted.
(** A CDATA field can be left: its content becomes markup. *)
Definition C35_cdata_full : Prop :=
  forall c q s, identifier q -> legal s = true -> exists kids,
    parse_text (emit_text (econf_of c) [WStart (qname q) [] []; WCData s; WEnd None]) =
    Stream (EStartDoc :: flat (Elem (Name q None None) [] [] kids)) FEnd /\
    (kids = [] \/ exists t, kids = [Txt t]).
Theorem C35_cdata_refuted : ~ C35_cdata_full.
Proof.
  intros H. destruct (H config0 "a" "]]><b>x</b><![CDATA[" ltac:(apply identifierb_ok; vm_compute; reflexivity) eq_refl) as [kids [Hk Ht]].
  destruct Ht as [->|[t ->]]; vm_compute in Hk; discriminate.
Qed.
Print Assumptions C35_cdata_refuted.

(** ** C36: CDATA *)
Theorem C36_cdata_partial :
  forall x E c id td fs vs i f t s,
    supported E -> rootable E id -> struct_type E id td fs -> others_survive x E fs vs i ->
    nth_error fs i = Some f -> nth_error vs i = Some (VStr t) ->
    ya_attribute (f_attrs f) = false -> ya_text (f_attrs f) = false -> ya_cdata (f_attrs f) = true ->
    f_ty f = TBase (BSimple SString) -> ~ suppressed x (VRec vs) f (VStr t) -> clean t -> contains "]]>" t = false ->
    white_indent c -> to_string_with_config x E c id (VRec vs) = SOk s ->
    exists N, forall fuel, N <= fuel -> from_str x E fuel id s = OOk (VRec vs).
Proof. exact round_cdata. Qed.
Print Assumptions C36_cdata_partial.

Definition E_cd := [struct_ "S" ya0 [fldA "c" (a_cdata ya0) tstr; fld "d" (tint I32)]].
Example C36_case :
  supported E_cd /\ rootable E_cd 0 /\ others_survive x0 E_cd [fldA "c" (a_cdata ya0) tstr; fld "d" (tint I32)] [VStr "<a>&]]b"; VInt 3] 0 /\
  clean "<a>&]]b" /\ contains "]]>" "<a>&]]b" = false /\
  to_string x0 E_cd 0 (VRec [VStr "<a>&]]b"; VInt 3]) = SOk (decl +++ "<S><c><![CDATA[<a>&]]b]]></c><d>3</d></S>").
Proof.
  split; [supp|]. split; [root|]. split; [|split; [apply cleanb_ok; vm_compute; reflexivity|split; vm_compute; reflexivity]].
  split; [reflexivity|]. intros [|[|j]] f v Hj Hf Hv; [contradiction| |destruct j; discriminate].
  injection Hf as <-. injection Hv as <-. fsurv.
Qed.

Definition C36_full : Prop :=
  forall x E id td f t s,
    supported E -> rootable E id -> struct_type E id td [f] -> ya_attribute (f_attrs f) = false -> ya_text (f_attrs f) = false ->
    ya_cdata (f_attrs f) = true -> f_ty f = TBase (BSimple SString) -> ~ suppressed x (VRec [VStr t]) f (VStr t) -> legal t = true ->
    to_string x E id (VRec [VStr t]) = SOk s ->
    exists N, forall fuel, N <= fuel -> from_str x E fuel id s = OOk (VRec [VStr t]).
Definition E_c := [struct_ "S" ya0 [fldA "c" (a_cdata ya0) tstr]].
Lemma C36_witness : forall t s o, legal t = true -> to_string x0 E_c 0 (VRec [VStr t]) = SOk s -> from_str x0 E_c fuel 0 s = o -> o <> OFuel ->
  o <> OOk (VRec [VStr t]) -> ~ C36_full.
Proof.
  intros t s o Hl Hs Hr Hf Hne H.
  specialize (H x0 E_c 0 (struct_ "S" ya0 [fldA "c" (a_cdata ya0) tstr]) (fldA "c" (a_cdata ya0) tstr) t s ltac:(supp) ltac:(root) ltac:(split; reflexivity)
                eq_refl eq_refl eq_refl eq_refl ltac:(intros [Hx|[(g & Hx & _)|(g & Hx & _)]]; discriminate) Hl Hs).
  apply (answers _ _ _ _ fuel _ _ Hr Hf) in H. contradiction.
Qed.
Theorem C36_end_refuted : ~ C36_full.
Proof. apply (C36_witness "a<b]]>c" (decl +++ "<S><c><![CDATA[a<b]]>c]]></c></S>") (OOk (VRec [VStr "a<bc]]>"]))); [vm_compute; reflexivity..|discriminate|discriminate]. Qed.
Theorem C36_empty_refuted : ~ C36_full.
Proof. apply (C36_witness "" (decl +++ "<S><c><![CDATA[]]></c></S>") (OErr "c is a required field of S")); [vm_compute; reflexivity..|discriminate|discriminate]. Qed.
Theorem C36_space_refuted : ~ C36_full.
Proof. apply (C36_witness " a " (decl +++ "<S><c><![CDATA[ a ]]></c></S>") (OOk (VRec [VStr "a"]))); [vm_compute; reflexivity..|discriminate|discriminate]. Qed.
Print Assumptions C36_end_refuted.
Print Assumptions C36_empty_refuted.
Print Assumptions C36_space_refuted.

(** ** C37: indentation

    For every type whose names contain no '<' and do not begin with '!', every
    value and every reader: control characters, "]]>" in CDATA sections,
    unbound prefixes and flattened fields included. *)
Theorem C37_indent_partial :
  forall x E c c' id v s s',
    quiet_names E -> white_indent c -> white_indent c' ->
    to_string_with_config x E c id v = SOk s -> to_string_with_config x E c' id v = SOk s' ->
    forall x' E' id' fuel, from_str x' E' fuel id' s = from_str x' E' fuel id' s'.
Proof. exact indent_reads. Qed.
Print Assumptions C37_indent_partial.

(** Even the events are the same in well-formed documents. *)
Theorem C37_events_partial :
  forall x E c c' id v s s',
    writable_types E -> own_element E id -> (forall l, ser_events x E id v = SOk l -> forall e, In e l -> legal_event e) ->
    white_indent c -> white_indent c' ->
    to_string_with_config x E c id v = SOk s -> to_string_with_config x E c' id v = SOk s' ->
    parse_text s = parse_text s'.
Proof. intros x E c c' id v s s' H1 H2 H3 H4 H5 H6 H7. exact (proj1 (indent_same x E c c' id v s s' H1 H2 H3 H4 H5 H6 H7)). Qed.
Print Assumptions C37_events_partial.

Example C37_case : exists l s,
  quiet_names EP /\ writable_types EP /\ own_element EP 0 /\ ser_events x0 EP 0 (annV ["x"; "y"] (Some pageV)) = SOk l /\ (forall e, In e l -> legal_event e) /\
  to_string_with_config x0 EP (Config true true (Some (String "009" ""))) 0 (annV ["x"; "y"] (Some pageV)) = SOk s /\
  to_string x0 EP 0 (annV ["x"; "y"] (Some pageV)) <> SOk s /\ white_indent (Config true true (Some (String "009" ""))) /\ white_indent config0.
Proof.
  do 2 eexists. split; [apply quiet_namesb_ok; vm_compute; reflexivity|]. split; [wtypes|]. split; [apply own_elementb_ok; reflexivity|].
  split; [vm_compute; reflexivity|]. split; [|split; [vm_compute; reflexivity|split; [vm_compute; discriminate|split; white]]].
  apply legal_eventb_ok. vm_compute. reflexivity.
Qed.

(** A CDATA field whose value closes the section and opens a processing
    instruction, which then swallows the indentation: the events differ, what
    is read does not. *)
Definition E_pi := [struct_ "S" ya0 [fldA "a" (a_cdata ya0) tstr; fldA "b" (a_cdata ya0) tstr]].
Definition piV := VRec [VStr "x]]><?p "; VStr "?>y]]></b><a>"].
Example C37_hostile_case : exists s s',
  quiet_names E_pi /\ to_string_with_config x0 E_pi (Config true true None) 0 piV = SOk s /\ to_string x0 E_pi 0 piV = SOk s' /\
  parse_text s <> parse_text s'.
Proof.
  do 2 eexists. split; [apply quiet_namesb_ok; vm_compute; reflexivity|]. split; [vm_compute; reflexivity|]. split; [vm_compute; reflexivity|].
  vm_compute. discriminate.
Qed.

(** A name that opens a CDATA section makes the indentation part of the
    text that follows. *)
Definition C37_full : Prop :=
  forall x E c id td fs v s s', struct_type E id td fs -> Typed E id v -> white_indent c ->
    to_string_with_config x E c id v = SOk s -> to_string x E id v = SOk s' ->
    forall fuel, from_str x E fuel id s = from_str x E fuel id s'.
Definition E_open := [struct_ "S" ya0 [fldA "a" (a_rename "x><![CDATA[" ya0) (TOpt (BSimple (SInt I32))); fldA "x" (a_cdata ya0) tstr]].
Theorem C37_refuted : ~ C37_full.
Proof.
  intros H. pose (v := VRec [VOpt (Some (VInt 1)); VStr "foo"]). pose (c := Config true true None).
  assert (Ht : Typed E_open 0 v) by typed.
  destruct (to_string_with_config x0 E_open c 0 v) as [s| |] eqn:Hs; [|vm_compute in Hs; discriminate..].
  destruct (to_string x0 E_open 0 v) as [s'| |] eqn:Hs'; [|vm_compute in Hs'; discriminate..].
  specialize (H x0 E_open c 0 _ _ v s s' (conj eq_refl eq_refl) Ht ltac:(white) Hs Hs' fuel).
  vm_compute in Hs, Hs'. injection Hs as <-. injection Hs' as <-. vm_compute in H. discriminate.
Qed.
Print Assumptions C37_refuted.

(** An indentation of other characters becomes text. *)
Definition C37_any_indent : Prop :=
  forall x E c id v s s', wellformed E -> Typed E id v -> (forall t, InValue t v -> clean t) ->
    to_string_with_config x E c id v = SOk s -> to_string x E id v = SOk s' ->
    forall fuel, from_str x E fuel id s = from_str x E fuel id s'.
Definition E_txt := [struct_ "S" ya0 [fld "d" (TOpt (BSimple (SInt I32))); fldA "t" (a_text ya0) (TOpt (BSimple SString))]].
Theorem C37_any_indent_refuted : ~ C37_any_indent.
Proof.
  intros H. pose (v := VRec [VOpt (Some (VInt 1)); VOpt None]).
  assert (Ht : Typed E_txt 0 v) by typed.
  specialize (H x0 E_txt (Config true true (Some "ab")) 0 v).
  destruct (to_string_with_config x0 E_txt (Config true true (Some "ab")) 0 v) as [s| |] eqn:Hs; [|vm_compute in Hs; discriminate..].
  specialize (H s (decl +++ "<S><d>1</d></S>") ltac:(wform) Ht).
  assert (Hf : forall fuel, from_str x0 E_txt fuel 0 s = from_str x0 E_txt fuel 0 (decl +++ "<S><d>1</d></S>")).
  { apply H; [|reflexivity|vm_compute; reflexivity]. intros t Hi. apply cleanb_ok, (all_stringsb_ok cleanb t _ Hi). vm_compute. reflexivity. }
  specialize (Hf fuel). vm_compute in Hs. injection Hs as <-. vm_compute in Hf. discriminate.
Qed.
Print Assumptions C37_any_indent_refuted.
