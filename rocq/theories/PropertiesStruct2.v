(** * Properties of derived struct deserializers: C15, C16, C19, C38-C40.

    Vocabulary and example types: see PropertiesStruct.v. *)
From Verif Require Import Str Num Xml XmlText Reader Schema De Ser Conform SpecTree SpecText SpecValue SpecStruct SpecSafe
  StructReads AttrReads WordProofs WordReads PropertiesStruct.
Open Scope list_scope.

(** ** C15: the root element *)

(** The name (and the namespace declarations) of the root do not matter, as
    long as the name is not that of a field and its namespace is accepted. *)
Theorem C15_root_name_partial :
  forall x E k id td fs d n n' a m m' kids o,
    struct_type E id td fs -> flattens fs = false ->
    (forall f, In f fs -> elem_field f -> flabel (t_attrs td) f <> elabel n') ->
    (d = 0 -> bad_namespace (t_attrs td) n = None /\ bad_namespace (t_attrs td) n' = None) ->
    Conforms x E k id (Elem n a m kids) ->
    Reads x E id d (Elem n a m kids) o <-> Reads x E id d (Elem n' a m' kids) o.
Proof. exact read_root_name. Qed.
Print Assumptions C15_root_name_partial.

Example C15_name_case : Reads x0 EP 0 0 (Elem (nm "somebody") idA [("z", "u")] kidsP) (OOk (annV ["x"; "y"] (Some pageV))).
Proof.
  apply (C15_root_name_partial x0 EP 0 0 person personFs 0 (nm "person") (nm "somebody") idA [] [("z", "u")] kidsP).
  - split; reflexivity.
  - reflexivity.
  - intros f H _. simpl in H. repeat (destruct H as [H|H]; [subst f; discriminate|]). destruct H.
  - intros _. split; reflexivity.
  - apply conforms_case.
  - apply reads_case.
Qed.

(** A root element in a namespace other than the one of the struct's prefix is
    rejected, whatever follows it (well-formed or not). *)
Theorem C15_bad_namespace :
  forall x E id td fs n a m u fuel evs tail f,
    struct_type E id td fs ->
    n_ns n = Some u ->
    (forall p, ya_prefix (t_attrs td) = Some p -> ns_get (ya_namespaces (t_attrs td)) p <> Some u) ->
    1 <= fuel ->
    filter (fun e => match e with EStartDoc | EPI _ | EComment _ => false | _ => true end) evs
      = EStart n a m :: tail ->
    from_events x E fuel id (Stream evs f) = OErr ("bad namespace for " +++ n_local n +++ ", found " +++ u).
Proof. exact read_bad_namespace. Qed.
Print Assumptions C15_bad_namespace.

Example C15_namespace_case :
  from_str x0 [book_ns] 60 0 "<ns:book xmlns:ns=""u2""><ns:author>A</ns:author></ns:book>" = OErr "bad namespace for book, found u2" /\
  from_str x0 [book_ns] 60 0 book_ns_txt = OOk (VRec [VStr "A"; VStr "T"]).
Proof. split; vm_compute; reflexivity. Qed.

(** ** C16: invalid text *)
Theorem C16_invalid_element_partial :
  forall x E k id td fs d n a m k1 kn ka km kk k2 i f s o,
    struct_type E id td fs -> flattens fs = false ->
    first_labelled (t_attrs td) fs i f -> elabel kn = flabel (t_attrs td) f -> n_ns kn <> Some "" ->
    base_of (f_ty f) = BSimple s ->
    (kk = [] \/ exists t e, kk = [Txt t] /\ visit_simple x s t = Er e) ->
    Conforms x E k id (Elem n a m (k1 ++ k2)) ->
    Reads x E id d (Elem n a m (k1 ++ Elem kn ka km kk :: k2)) o <-> Reads x E id d (Elem n a m (k1 ++ k2)) o.
Proof. exact read_invalid_child. Qed.
Print Assumptions C16_invalid_element_partial.

Definition ageF := fld "age" (TOpt (BSimple (SInt U8))).
Example C16_element_case :
  first_labelled (t_attrs person) personFs 3 ageF /\ visit_simple x0 (SInt U8) "256" = Er "number too large to fit in target type" /\
  Reads x0 EP 0 0 (personT idA ([leaf "name" "Ann"; leaf "tag" "x"] ++ leaf "age" "256" :: [pageT; leaf "tag" "y"]))
    (OOk (annV ["x"; "y"] (Some pageV))).
Proof.
  assert (Hf : first_labelled (t_attrs person) personFs 3 ageF).
  { split; [reflexivity|]. split; [split; reflexivity|]. intros j g Hj Hg _.
    do 3 (destruct j as [|j]; [injection Hg as <-; discriminate|]). lia. }
  split; [exact Hf|]. split; [vm_compute; reflexivity|].
  apply (C16_invalid_element_partial x0 EP 0 0 person personFs 0 (nm "person") idA [] [leaf "name" "Ann"; leaf "tag" "x"]
    (nm "age") [] [] [Txt "256"] [pageT; leaf "tag" "y"] 3 ageF (SInt U8)).
  - split; reflexivity.
  - reflexivity.
  - exact Hf.
  - reflexivity.
  - discriminate.
  - reflexivity.
  - right. exists "256", "number too large to fit in target type". split; [reflexivity|vm_compute; reflexivity].
  - apply conforms_case.
  - apply reads_case.
Qed.

(** The first invalid attribute value (fields in declaration order, attributes
    in document order) makes reading fail with the message of the parser.  The
    input need not be a document: whatever follows the start tag.  Missing: an
    element that has the name of one of the struct's fields and not that of the
    struct (the field is read first, and this may already fail). *)
Theorem C16_invalid_attribute_partial :
  forall x E id td fs1 f fs2 n a1 b a2 m d e,
    struct_type E id td (fs1 ++ f :: fs2) ->
    (elabel n = root_label td \/ field_for (t_attrs td) (fs1 ++ f :: fs2) n = None) ->
    (d = 0 -> bad_namespace (t_attrs td) n = None) ->
    (forall g, In g fs1 -> ya_attribute (f_attrs g) = true ->
       forall c, In c (a1 ++ b :: a2) -> n_local (at_name c) = field_name g -> attr_valid x E g c) ->
    ya_attribute (f_attrs f) = true ->
    (forall c, In c a1 -> n_local (at_name c) = field_name f -> attr_valid x E f c) ->
    n_local (at_name b) = field_name f -> attr_invalid x E f b e ->
    exists N, forall fuel, N <= fuel -> forall evs tail fin,
      filter (fun e => match e with EStartDoc | EPI _ | EComment _ => false | _ => true end) evs
        = EStart n (a1 ++ b :: a2) m :: tail ->
      fst (run (De.de x E fuel id) (DState d (Stream evs fin) None)) = OErr e.
Proof. exact invalid_attribute. Qed.
Print Assumptions C16_invalid_attribute_partial.

(** Simple content that holds elements, which [Conforms] excludes; and a Vec
    attribute of a user type after a valid attribute. *)
Definition cellT := struct_ "Cell" ya0
  [fldA "id" (a_attr ya0) (tint I32); fldA "pos" (a_attr ya0) (TVec (BUser 1)); fld "n" tstr].
Definition posT := TypeDef "Pos" ya0 (DPrim (PInner (SInt U8))).
Example C16_attribute_case :
  attr_invalid x0 EP (fldA "id" (a_attr ya0) (tint I32)) (at1 "id" "7x") "invalid digit found in string" /\
  from_str x0 EP 60 0 "<person id=""7x""><age>1<b/></age>" = OErr "invalid digit found in string" /\
  attr_valid x0 [cellT; posT] (fldA "id" (a_attr ya0) (tint I32)) (at1 "id" "7") /\
  attr_invalid x0 [cellT; posT] (fldA "pos" (a_attr ya0) (TVec (BUser 1))) (at1 "pos" " 3 300 4") "number too large to fit in target type" /\
  from_str x0 [cellT; posT] 60 0 "<Cell id=""7"" pos="" 3 300 4""><n>x</n></Cell>" = OErr "number too large to fit in target type".
Proof.
  split; [vm_compute; reflexivity|]. split; [vm_compute; reflexivity|].
  split; [eexists; vm_compute; reflexivity|]. split; [|vm_compute; reflexivity].
  exists ["3"], "300", ["4"]. split; [reflexivity|]. split.
  - intros t [<-|[]]. exists posT, 60. eexists. split; [reflexivity|vm_compute; reflexivity].
  - exists posT, 60. split; [reflexivity|vm_compute; reflexivity].
Qed.

(** ** C19: a deserializer consumes exactly its element

    Whatever is done next ([K]) finds the end tag of the element, at a depth
    one more than before the start tag.  Missing for the full claim: simple
    content with inner elements (see the refutation). *)
Theorem C19_consumes_element_partial :
  forall x E k id td fs d n a m kids v,
    struct_type E id td fs ->
    Conforms x E k id (Elem n a m kids) -> Reads x E id d (Elem n a m kids) (OOk v) ->
    exists N, forall fuel, N <= fuel -> forall evs tail f A (K : value -> prog A),
      filter (fun e => match e with EStartDoc | EPI _ | EComment _ => false | _ => true end) evs
        = flat (Elem n a m kids) ++ tail ->
      fst (run (bind (De.de x E fuel id) K) (DState d (Stream evs f) None)) =
      fst (run (K v) (DState (S d) (Stream (EEnd n :: tail) f) None)).
Proof. exact read_consumes. Qed.
Print Assumptions C19_consumes_element_partial.

(** The element is followed by a sibling of the same name. *)
Example C19_case :
  fst (run (bind (De.de x0 EP 60 1) (fun v => Next (fun e => Depth (fun d => Ret (v, e, d)))))
           (DState 1 (Stream (flat pageT ++ flat pageT ++ [EEnd (nm "p")]) FEnd) None))
  = OOk (pageV, Ok (EEnd (nm "page")), 1).
Proof. vm_compute. reflexivity. Qed.

(** The same without [Conforms], inside of any well-nested document. *)
Definition C19_full : Prop :=
  forall x E id td fs d n a m kids tail fuel v A (K : value -> prog A),
    struct_type E id td fs ->
    open_after d (flat (Elem n a m kids) ++ tail) = Some 0 ->
    fst (run (De.de x E fuel id) (DState d (Stream (flat (Elem n a m kids) ++ tail) FEnd) None)) = OOk v ->
    fst (run (bind (De.de x E fuel id) K) (DState d (Stream (flat (Elem n a m kids) ++ tail) FEnd) None)) =
    fst (run (K v) (DState (S d) (Stream (EEnd n :: tail) FEnd) None)).

(** [<g>] is also the name of an optional integer field: reading the first
    [<g>] of [<P><g>1</g><g><h/></g></P>] ends in the second one. *)
Theorem C19_refuted : ~ C19_full.
Proof.
  intros H.
  set (S_ := struct_ "S" ya0 [fld "g" (TOpt (BSimple (SInt I32)))]).
  specialize (H x0 [S_] 0 S_ [fld "g" (TOpt (BSimple (SInt I32)))] 1 (nm "g") [] [] [Txt "1"]
    (flat (el "g" [el "h" []]) ++ [EEnd (nm "P")]) 60 (VRec [VOpt (Some (VInt 1))]) (res event)
    (fun _ => Next (fun _ => Next (fun e => Ret e)))).
  cut (OOk (Ok (EEnd (nm "P"))) = OOk (Ok (EStart (nm "g") [] []))); [discriminate|].
  apply H; [split; reflexivity|vm_compute; reflexivity|vm_compute; reflexivity].
Qed.
Print Assumptions C19_refuted.

(** ** C38: attributes in foreign namespaces *)
Definition C38_full : Prop :=
  forall x E k id td fs d n a1 b a2 m kids o,
    struct_type E id td fs -> flattens fs = false ->
    (forall f, In f fs -> ya_attribute (f_attrs f) = true -> ya_prefix (f_attrs f) = None) ->
    n_ns (at_name b) <> None ->
    Conforms x E k id (Elem n (a1 ++ a2) m kids) ->
    Reads x E id d (Elem n (a1 ++ b :: a2) m kids) o <-> Reads x E id d (Elem n (a1 ++ a2) m kids) o.

(** [p:id] replaces [id]: the generated code compares local names only. *)
Definition foreignA := Attr (Name "id" (Some "u") (Some "p")) "8".
Theorem C38_refuted : ~ C38_full.
Proof.
  intros H.
  assert (Hr : Reads x0 EP 0 0 (personT (idA ++ foreignA :: []) kidsP)
                 (OOk (annV ["x"; "y"] (Some pageV)))).
  { apply (H x0 EP 0 0 person personFs 0 (nm "person") idA foreignA [] [] kidsP).
    - split; reflexivity.
    - reflexivity.
    - intros f Hf _. simpl in Hf. repeat (destruct Hf as [Hf|Hf]; [subst f; reflexivity|]). destruct Hf.
    - discriminate.
    - apply conforms_case.
    - apply reads_case. }
  apply (read_decode x0 EP 0) in Hr; [|conforms]. revert Hr. vm_compute. discriminate.
Qed.
Print Assumptions C38_refuted.

(** What does hold: attributes whose local name is that of no attribute field
    are ignored whatever their namespace ([C13_unknown_attribute_partial]), and an
    attribute field of simple type receives the attributes of its local name
    in any namespace, the last one winning. *)
Theorem C38_local_name_partial :
  forall x E k id td fs d n a m kids i f s vs,
    struct_type E id td fs -> nth_error fs i = Some f ->
    ya_attribute (f_attrs f) = true -> ya_text (f_attrs f) = false ->
    base_of (f_ty f) = BSimple s ->
    Conforms x E k id (Elem n a m kids) ->
    Reads x E id d (Elem n a m kids) (OOk (VRec vs)) ->
    exists l, Forall2 (fun t v => visit_simple x s t = Ok v) (attr_texts f a) l /\ nth_error vs i = collected x f l.
Proof. exact read_attr_values. Qed.
Print Assumptions C38_local_name_partial.

Example C38_case :
  attr_texts (fldA "id" (a_attr ya0) (tint I32)) [at1 "id" "7"; at1 "lang" "en"; foreignA] = ["7"; "8"] /\
  from_str x0 EP 60 0 "<person xmlns:p=""u"" id=""7"" p:id=""8""><name>Ann</name></person>"
  = OOk (VRec [VInt 8; VStr "Ann"; VVec []; VOpt None; VOpt None; VOpt None; VStr "my_default_value"]).
Proof. split; vm_compute; reflexivity. Qed.

(** ** C39: text fields

    A text field takes the last text chunk directly inside its element.
    Missing for the full claim: with several chunks (text interrupted by
    elements) only the last one arrives (see the refutation). *)
Theorem C39_text_field_partial :
  forall x E k id td fs d n a m kids i f vs,
    struct_type E id td fs -> nth_error fs i = Some f -> ya_text (f_attrs f) = true -> elem_field f ->
    (f_ty f = TBase (BSimple SString) \/ f_ty f = TOpt (BSimple SString)) ->
    (forall n a m ks, In (Elem n a m ks) kids -> elabel n <> flabel (t_attrs td) f) ->
    Conforms x E k id (Elem n a m kids) ->
    Reads x E id d (Elem n a m kids) (OOk (VRec vs)) ->
    nth_error vs i = collected x f (texts kids).
Proof. exact read_text. Qed.
Print Assumptions C39_text_field_partial.

Definition noteF := fldA "note" (a_text ya0) (TOpt (BSimple SString)).
Example C39_case :
  collected x0 noteF (texts [leaf "name" "Ann"; Txt "hello"; unknownT]) = Some (VOpt (Some (VStr "hello"))) /\
  Reads x0 EP 0 0 (personT idA [leaf "name" "Ann"; Txt "hello"; unknownT])
    (OOk (VRec [VInt 7; VStr "Ann"; VVec []; VOpt None; VOpt None; VOpt (Some (VStr "hello")); VStr "my_default_value"])).
Proof. split; [reflexivity|reads]. Qed.

Fixpoint joined (kids : list node) : string :=
  match kids with
  | [] => ""
  | Txt s :: ks => s +++ joined ks
  | Elem _ _ _ _ :: ks => joined ks
  end.
Definition C39_full : Prop :=
  forall x E k id td fs d n a m kids i f vs,
    struct_type E id td fs -> nth_error fs i = Some f -> ya_text (f_attrs f) = true -> elem_field f ->
    f_ty f = TOpt (BSimple SString) ->
    (forall n a m ks, In (Elem n a m ks) kids -> elabel n <> flabel (t_attrs td) f) ->
    (exists s, In (Txt s) kids) ->
    Conforms x E k id (Elem n a m kids) ->
    Reads x E id d (Elem n a m kids) (OOk (VRec vs)) ->
    nth_error vs i = Some (VOpt (Some (VStr (joined kids)))).
Theorem C39_refuted : ~ C39_full.
Proof.
  intros H.
  specialize (H x0 EP 0 0 person personFs 0 (nm "person") idA [] [Txt "hello, "; leaf "name" "Ann"; Txt "bye"] 5 noteF
    [VInt 7; VStr "Ann"; VVec []; VOpt None; VOpt None; VOpt (Some (VStr "bye")); VStr "my_default_value"]).
  cut (nth_error [VOpt (Some (VStr "bye"))] 0 = Some (VOpt (Some (VStr "hello, bye")))); [discriminate|].
  apply H.
  - split; reflexivity.
  - reflexivity.
  - reflexivity.
  - split; reflexivity.
  - reflexivity.
  - intros n a m ks Hi. simpl in Hi. repeat (destruct Hi as [Hi|Hi]; [try discriminate Hi; injection Hi as <- <- <- <-; discriminate|]).
    destruct Hi.
  - exists "bye". simpl. auto.
  - conforms.
  - reads.
Qed.
Print Assumptions C39_refuted.

(** ** C40: attribute lists

    Reading: the items of the attribute value. Missing for the full claim: Vec
    attributes are not written (see the refutation). *)
Theorem C40_attribute_list_partial :
  forall x E k id td fs d n a1 b a2 m kids i f s words vs,
    struct_type E id td fs -> nth_error fs i = Some f ->
    ya_attribute (f_attrs f) = true -> ya_text (f_attrs f) = false ->
    f_ty f = TVec (BSimple s) ->
    n_local (at_name b) = field_name f ->
    (forall c, In c (a1 ++ a2) -> n_local (at_name c) <> field_name f) ->
    separated (at_value b) words ->
    Conforms x E k id (Elem n (a1 ++ b :: a2) m kids) ->
    Reads x E id d (Elem n (a1 ++ b :: a2) m kids) (OOk (VRec vs)) ->
    exists l, Forall2 (fun t v => visit_simple x s t = Ok v) words l /\ nth_error vs i = Some (VVec l).
Proof. exact read_attr_list. Qed.
Print Assumptions C40_attribute_list_partial.

Definition listT := struct_ "L" ya0 [fldA "ids" (a_attr ya0) (TVec (BSimple (SInt I32)))].
(** Separated by spaces, a line feed, U+2003 and U+00A0. *)
Example C40_case :
  separated (" 1  -2" +++ nl +++ "3" +++ utf8 8195 +++ "4" +++ utf8 160) ["1"; "-2"; "3"; "4"] /\
  from_str x0 [listT] 60 0 "<L ids="" 1  -2&#xA;3&#8195;4&#xa0;""/>"
    = OOk (VRec [VVec [VInt 1; VInt (-2); VInt 3; VInt 4]]).
Proof.
  assert (sp : forall n s, In n blank_points -> begins_blank (utf8 n +++ s)) by (intros n s H; exists n, s; auto).
  assert (one : forall n, In n blank_points -> blanks (utf8 n)).
  { intros n H. rewrite <- (app_str_nil (utf8 n)). apply blanks_more; [exact H|apply blanks_none]. }
  split; [|vm_compute; reflexivity].
  apply (sep_word " " "1"); [apply (one 32%N); cbn; tauto|apply word_check; reflexivity|right; apply (sp 32%N); cbn; tauto|].
  apply (sep_word "  " "-2"); [apply (blanks_more 32 " "); [cbn; tauto|apply (one 32%N); cbn; tauto]|apply word_check; reflexivity
                              |right; apply (sp 10%N); cbn; tauto|].
  apply (sep_word nl "3"); [apply (one 10%N); cbn; tauto|apply word_check; reflexivity|right; apply (sp 8195%N); cbn; tauto|].
  apply (sep_word (utf8 8195) "4" (utf8 160)); [apply one; cbn; tauto|apply word_check; reflexivity|right; apply (sp 160%N ""); cbn; tauto|].
  apply sep_end. apply one. cbn; tauto.
Qed.

Definition C40_written_full : Prop :=
  forall x E id td fs i f b l vs s n a m kids,
    struct_type E id td fs -> nth_error fs i = Some f ->
    ya_attribute (f_attrs f) = true -> f_ty f = TVec b ->
    ya_skip (f_attrs f) = false -> ya_skip_if (f_attrs f) = None -> ya_default (f_attrs f) = None ->
    nth_error vs i = Some (VVec l) -> l <> [] ->
    to_string x E id (VRec vs) = SOk s -> document s (Elem n a m kids) ->
    exists c, In c a /\ n_local (at_name c) = field_name f.
Theorem C40_written_refuted : ~ C40_written_full.
Proof.
  intros H.
  destruct (H x0 [listT] 0 listT [fldA "ids" (a_attr ya0) (TVec (BSimple (SInt I32)))] 0
    (fldA "ids" (a_attr ya0) (TVec (BSimple (SInt I32)))) (BSimple (SInt I32)) [VInt 1; VInt 2] [VVec [VInt 1; VInt 2]]
    (xml_decl +++ "<L />") (nm "L") [] [] []) as (c & Hc & _); try reflexivity.
  - split; reflexivity.
  - discriminate.
  - exact Hc.
Qed.
Print Assumptions C40_written_refuted.
