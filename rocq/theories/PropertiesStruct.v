(** * Properties of derived struct deserializers: C10-C14.

    Vocabulary: SpecTree.v (trees, labels), SpecValue.v ([Conforms], [Reads]),
    SpecStruct.v.

    [Reads x E id d t o] says what deserializing type [id] does on every
    reader with [d] open elements whose events continue with element [t];
    [Conforms x E k id t] says that [t] is a document the type is meant for. *)
From Verif Require Import Str Num Xml XmlText Reader Schema De Ser Conform SpecTree SpecText SpecValue SpecStruct
  StructReads.
Open Scope list_scope.

(** ** A type and documents for the examples *)
Definition nm (s : string) : name := Name s None None.
Definition el s kids := Elem (nm s) [] [] kids.
Definition leaf s t := el s [Txt t].
Definition at1 k v := Attr (nm k) v.

Definition person := struct_ "Person" ya0
  [fldA "id" (a_attr ya0) (tint I32); fld "name" tstr; fld "tag" (TVec (BSimple SString));
   fld "age" (TOpt (BSimple (SInt U8))); fld "page" (TOpt (BUser 1)); fldA "note" (a_text ya0) (TOpt (BSimple SString));
   fldA "lang" (a_default "default_string" ya0) tstr].
Definition personFs := match t_body person with DStruct fs => fs | _ => [] end.
Definition EP := [person; page].
Definition pageT := el "page" [leaf "number" "40"; leaf "text" "The Earth"].
Definition personT a kids := Elem (nm "person") a [] kids.
Definition idA := [at1 "id" "7"].
Definition kidsP := [leaf "name" "Ann"; leaf "tag" "x"; pageT; leaf "tag" "y"].
Definition pageV := VRec [VInt 40; VStr "The Earth"].
Definition annV (tags : list string) (page : option value) :=
  VRec [VInt 7; VStr "Ann"; VVec (map VStr tags); VOpt None; VOpt page; VOpt None; VStr "my_default_value"].

Ltac each_in H := repeat (destruct H as [<-|H]; [|try (destruct H; fail)]); try (destruct H; fail).
Ltac kid_ok := first
  [ apply kid_txt; discriminate
  | eapply kid_simple; [reflexivity|reflexivity|discriminate|first [left; reflexivity|right; eexists; reflexivity]]
  | eapply kid_user; [reflexivity|reflexivity|]
  | eapply kid_other; reflexivity ].
Ltac struct_ok :=
  eapply fits_struct;
  [ reflexivity | reflexivity | right; reflexivity
  | let f := fresh "f" in let a := fresh "a" in let Hf := fresh "Hf" in
    intros f a ? Hf ? ? ? ?; simpl in Hf;
    repeat (destruct Hf as [Hf|Hf]; [subst f; simpl in *; discriminate|]); destruct Hf
  | let k := fresh "k" in let Hk := fresh "Hk" in
    intros k Hk; simpl in Hk;
    repeat (destruct Hk as [Hk|Hk]; [subst k; kid_ok|]); try (destruct Hk; fail)
  | discriminate ].
Ltac conforms := cbv beta iota delta [Conforms]; repeat struct_ok.
Ltac reads := apply (read_decode x0 EP 0); [conforms|vm_compute; reflexivity].

Ltac unsup := split; [|split];
  [ try discriminate; let a := fresh in let Ha := fresh in
    intros _ a Ha; simpl in Ha; repeat (destruct Ha as [Ha|Ha]; [subst a; discriminate|]); destruct Ha
  | try discriminate; intros _; split; [reflexivity|]; let Ha := fresh in
    intros ? ? ? ? Ha; simpl in Ha; repeat (destruct Ha as [Ha|Ha]; [injection Ha as <- <- <- <-; discriminate|]); destruct Ha
  | try discriminate; let Ha := fresh in
    intros _ ? Ha; simpl in Ha; repeat (destruct Ha as [Ha|Ha]; [discriminate|]); destruct Ha ].

(** A document text of a tree that is read with outcome [o]. *)
Theorem reads_text : forall x E id s t o, document s t -> Reads x E id 0 t o ->
  exists N, forall fuel, N <= fuel -> from_str x E fuel id s = o.
Proof.
  intros x E id s t o Hd [N H]. exists N. intros fuel Hf. unfold from_str, from_events. rewrite Hd.
  apply (H fuel Hf (EStartDoc :: flat t) [] FEnd). rewrite app_nil_r. cbn [filter].
  assert (Hfl : forall t, filter (fun e => match e with EStartDoc | EPI _ | EComment _ => false | _ => true end) (flat t) = flat t).
  { clear. intros t. induction t as [s|n a m ks IH] using TreeFacts.node_ind'; [reflexivity|].
    cbn [flat filter]. f_equal. rewrite filter_app. f_equal.
    induction ks as [|k ks IHk]; [reflexivity|]. cbn [flat_map]. rewrite filter_app, IH by (left; reflexivity).
    f_equal. apply IHk. intros; apply IH; right; assumption. }
  apply Hfl.
Qed.
Print Assumptions reads_text.

Example document_case :
  document "<person id=""7""><name>Ann</name><tag>x</tag><page><number>40</number><text>The Earth</text></page><tag>y</tag></person>"
    (personT idA kidsP).
Proof. vm_compute. reflexivity. Qed.

Example conforms_case : Conforms x0 EP 0 0 (personT idA kidsP).
Proof. conforms. Qed.
Example reads_case : Reads x0 EP 0 0 (personT idA kidsP) (OOk (annV ["x"; "y"] (Some pageV))).
Proof. reads. Qed.

(** ** C10: missing fields *)

(** If a document is read although nothing supplies field [f], then [f] is not
    required and has the value an absent field gets. *)
Theorem C10_missing_field_partial :
  forall x E k id td fs d n a m kids i f vs,
    struct_type E id td fs -> nth_error fs i = Some f ->
    unsupplied (t_attrs td) f a kids ->
    Conforms x E k id (Elem n a m kids) ->
    Reads x E id d (Elem n a m kids) (OOk (VRec vs)) ->
    missing_value x f <> None /\ nth_error vs i = missing_value x f.
Proof. exact read_missing. Qed.
Print Assumptions C10_missing_field_partial.

Example C10_case :
  struct_type EP 0 person personFs /\
  (forall i f, In (i, f) [(2, fld "tag" (TVec (BSimple SString))); (3, fld "age" (TOpt (BSimple (SInt U8))));
               (6, fldA "lang" (a_default "default_string" ya0) tstr)] ->
     nth_error personFs i = Some f /\
     unsupplied (t_attrs person) f idA [leaf "name" "Ann"]) /\
  Reads x0 EP 0 0 (personT idA [leaf "name" "Ann"]) (OOk (annV [] None)).
Proof.
  split; [split; reflexivity|]. split; [|reads]. intros i f H.
  destruct H as [H|[H|[H|[]]]]; injection H as <- <-; (split; [reflexivity|]); unsup.
Qed.

(** A document that is read without error has the element of a required field
    removed: the error names the field and the type. *)
Theorem C10_required_element_partial :
  forall x E k id td fs d n a m k1 k2 kn ka km kk i f v,
    struct_type E id td fs -> first_labelled (t_attrs td) fs i f ->
    missing_value x f = None ->
    unsupplied (t_attrs td) f a (k1 ++ k2) -> elabel kn = flabel (t_attrs td) f ->
    Conforms x E k id (Elem n a m (k1 ++ Elem kn ka km kk :: k2)) ->
    Reads x E id d (Elem n a m (k1 ++ Elem kn ka km kk :: k2)) (OOk v) ->
    Reads x E id d (Elem n a m (k1 ++ k2)) (OErr (f_label f +++ " is a required field of " +++ t_name td)).
Proof. exact read_required. Qed.
Print Assumptions C10_required_element_partial.

(** The same for an attribute and for the text of the element. *)
Theorem C10_required_attribute_partial :
  forall x E k id td fs d n a1 b a2 m kids i f v,
    struct_type E id td fs -> flattens fs = false -> nth_error fs i = Some f ->
    missing_value x f = None ->
    unsupplied (t_attrs td) f (a1 ++ a2) kids ->
    (forall j g, j <> i -> nth_error fs j = Some g -> ya_attribute (f_attrs g) = true ->
       n_local (at_name b) <> field_name g) ->
    Conforms x E k id (Elem n (a1 ++ b :: a2) m kids) ->
    Reads x E id d (Elem n (a1 ++ b :: a2) m kids) (OOk v) ->
    Reads x E id d (Elem n (a1 ++ a2) m kids) (OErr (f_label f +++ " is a required field of " +++ t_name td)).
Proof. exact read_required_attr. Qed.
Print Assumptions C10_required_attribute_partial.

Theorem C10_required_text_partial :
  forall x E k id td fs d n a m k1 s k2 i f v,
    struct_type E id td fs -> flattens fs = false -> nth_error fs i = Some f ->
    missing_value x f = None ->
    unsupplied (t_attrs td) f a (k1 ++ k2) ->
    (forall j g, nth_error fs j = Some g -> ya_text (f_attrs g) = true -> j = i) ->
    Conforms x E k id (Elem n a m (k1 ++ Txt s :: k2)) ->
    Reads x E id d (Elem n a m (k1 ++ Txt s :: k2)) (OOk v) ->
    Reads x E id d (Elem n a m (k1 ++ k2)) (OErr (f_label f +++ " is a required field of " +++ t_name td)).
Proof. exact read_required_text. Qed.
Print Assumptions C10_required_text_partial.

Example C10_required_case :
  first_labelled (t_attrs person) personFs 1 (fld "name" tstr) /\
  missing_value x0 (fld "name" tstr) = None /\
  missing_value x0 (fldA "id" (a_attr ya0) (tint I32)) = None /\
  Reads x0 EP 0 0 (personT idA ([] ++ leaf "name" "Ann" :: [leaf "tag" "x"])) (OOk (annV ["x"] None)) /\
  from_str x0 EP 60 0 "<person id=""7""><tag>x</tag></person>" = OErr "name is a required field of Person" /\
  from_str x0 EP 60 0 "<person><name>Ann</name></person>" = OErr "id is a required field of Person".
Proof.
  split. { split; [reflexivity|]. split; [split; reflexivity|]. intros j g Hj Hg Hf. destruct j as [|j]; [|lia].
           simpl in Hg. injection Hg as <-. destruct Hf as [Hf _]; discriminate. }
  split; [reflexivity|]. split; [reflexivity|]. split; [reads|]. split; vm_compute; reflexivity.
Qed.

(** Documents outside of [Conforms]: the text inside of [<name>], which is
    nested in an element of simple type, ends up in the text field of the
    struct although the struct has no text. *)
Definition C10_full : Prop :=
  forall x E fuel id td fs s n a m kids i f vs,
    struct_type E id td fs -> nth_error fs i = Some f ->
    unsupplied (t_attrs td) f a kids ->
    document s (Elem n a m kids) ->
    from_str x E fuel id s = OOk (VRec vs) -> nth_error vs i = missing_value x f.
Theorem C10_refuted : ~ C10_full.
Proof.
  intros H.
  specialize (H x0 EP 60 0 person personFs
    "<person id=""7""><age>1<name>Bob</name></age><name>Al</name></person>"
    (nm "person") idA [] [el "age" [Txt "1"; leaf "name" "Bob"]; leaf "name" "Al"] 5
    (fldA "note" (a_text ya0) (TOpt (BSimple SString)))
    [VInt 7; VStr "Al"; VVec []; VOpt None; VOpt None; VOpt (Some (VStr "Bob")); VStr "my_default_value"]).
  cut (nth_error [VOpt (Some (VStr "Bob"))] 0 = Some (VOpt None)); [discriminate|].
  apply H; [split; reflexivity|reflexivity|unsup|vm_compute; reflexivity|vm_compute; reflexivity].
Qed.
Print Assumptions C10_refuted.

(** ** C11: order of the children

    Missing for the full claim: with flattened fields, the children that belong
    to no field must keep their order; when the element has a text, no child may
    have the name of a text field.  Without these it is false, see
    PropertiesStruct3.v. *)
Theorem C11_child_order_partial :
  forall x E k id td fs d n a m kids kids' v,
    struct_type E id td fs ->
    (flattens fs = true -> filter (is_left (t_attrs td) fs) kids = filter (is_left (t_attrs td) fs) kids') ->
    (forall f s kn ka km kk, In f fs -> ya_text (f_attrs f) = true ->
       In (Txt s) kids -> In (Elem kn ka km kk) kids -> flabel (t_attrs td) f <> elabel kn) ->
    same_but_order kids kids' ->
    Conforms x E k id (Elem n a m kids) ->
    Reads x E id d (Elem n a m kids) (OOk v) ->
    Conforms x E k id (Elem n a m kids') /\ Reads x E id d (Elem n a m kids') (OOk v).
Proof. exact read_same_but_order. Qed.
Print Assumptions C11_child_order_partial.

(** Exchanging neighbours that concern different fields. *)
Theorem C11_child_swaps_partial :
  forall x E k id td fs d n a m kids kids' v,
    struct_type E id td fs -> reordered (t_attrs td) fs kids kids' ->
    Conforms x E k id (Elem n a m kids) ->
    Reads x E id d (Elem n a m kids) (OOk v) ->
    Conforms x E k id (Elem n a m kids') /\ Reads x E id d (Elem n a m kids') (OOk v).
Proof. exact read_reordered. Qed.
Print Assumptions C11_child_swaps_partial.

(** The names are permuted around a text. *)
Definition kidsP' := [leaf "tag" "x"; leaf "tag" "y"; leaf "name" "Ann"; pageT].
Ltac same_order := split; [reflexivity|]; intros [u l]; cbv -[String.eqb];
  destruct (String.eqb "" u); [|reflexivity];
  destruct (String.eqb "tag" l) eqn:H1, (String.eqb "name" l) eqn:H2, (String.eqb "page" l) eqn:H3; try reflexivity;
  repeat match goal with H : String.eqb _ _ = true |- _ => apply String.eqb_eq in H end; subst; discriminate.
Example C11_case :
  same_but_order (Txt "t" :: kidsP) (kidsP' ++ [Txt "t"]) /\ kidsP <> kidsP' /\
  (forall f s kn ka km kk, In f personFs -> ya_text (f_attrs f) = true ->
       In (Txt s) (Txt "t" :: kidsP) -> In (Elem kn ka km kk) (Txt "t" :: kidsP) -> flabel (t_attrs person) f <> elabel kn) /\
  Reads x0 EP 0 0 (personT idA (kidsP' ++ [Txt "t"]))
    (OOk (VRec [VInt 7; VStr "Ann"; VVec [VStr "x"; VStr "y"]; VOpt None; VOpt (Some pageV); VOpt (Some (VStr "t")); VStr "my_default_value"])).
Proof.
  split; [same_order|split; [discriminate|split; [|reads]]].
  intros f s kn ka km kk Hf Ht _ Hk. simpl in Hf.
  repeat (destruct Hf as [<-|Hf]; [try discriminate Ht|]); [|destruct Hf].
  simpl in Hk. repeat (destruct Hk as [Hk|Hk]; [first [discriminate Hk|injection Hk as <- _ _ _; discriminate]|]). destruct Hk.
Qed.

(** ** C12: which children give a field its value *)
Theorem C12_collection_partial :
  forall x E k id td fs d n a m kids i f vs,
    struct_type E id td fs -> first_labelled (t_attrs td) fs i f -> ya_text (f_attrs f) = false ->
    Conforms x E k id (Elem n a m kids) ->
    Reads x E id d (Elem n a m kids) (OOk (VRec vs)) ->
    exists l, Items x E (S d) (t_attrs td) f kids l /\ nth_error vs i = collected x f l.
Proof. exact read_items. Qed.
Print Assumptions C12_collection_partial.

(** Two names (the last wins), an unparseable age, two tags. *)
Example C12_case :
  Items x0 EP 1 (t_attrs person) (fld "tag" (TVec (BSimple SString))) kidsP [VStr "x"; VStr "y"] /\
  Reads x0 EP 0 0 (personT idA (leaf "name" "Bob" :: leaf "age" "old" :: kidsP)) (OOk (annV ["x"; "y"] (Some pageV))).
Proof.
  split; [|reads]. unfold kidsP.
  apply items_other; [discriminate|]. eapply items_simple; try reflexivity.
  apply items_other; [discriminate|]. eapply items_simple; try reflexivity. apply items_nil.
Qed.

(** ** C13: unknown elements and attributes *)
Theorem C13_unknown_element_partial :
  forall x E k id td fs d n a m k1 kn ka km kk k2 o,
    struct_type E id td fs -> flattens fs = false ->
    (forall f, In f fs -> elem_field f -> flabel (t_attrs td) f <> elabel kn) ->
    Conforms x E k id (Elem n a m (k1 ++ k2)) ->
    Reads x E id d (Elem n a m (k1 ++ Elem kn ka km kk :: k2)) o <-> Reads x E id d (Elem n a m (k1 ++ k2)) o.
Proof. exact read_unknown. Qed.
Print Assumptions C13_unknown_element_partial.

Theorem C13_unknown_attribute_partial :
  forall x E k id td fs d n a1 b a2 m kids o,
    struct_type E id td fs -> flattens fs = false ->
    (forall f, In f fs -> ya_attribute (f_attrs f) = true -> n_local (at_name b) <> field_name f) ->
    Conforms x E k id (Elem n (a1 ++ a2) m kids) ->
    Reads x E id d (Elem n (a1 ++ b :: a2) m kids) o <-> Reads x E id d (Elem n (a1 ++ a2) m kids) o.
Proof. exact read_unknown_attr. Qed.
Print Assumptions C13_unknown_attribute_partial.

(** The unknown element holds elements named like the fields. *)
Definition unknownT := Elem (nm "person") [at1 "id" "9"] [] [leaf "name" "Eve"; Txt "t"; pageT; el "tag" []].
Example C13_case :
  (forall f, In f personFs -> elem_field f ->
     flabel (t_attrs person) f <> elabel (nm "person")) /\
  Reads x0 EP 0 0 (personT idA ([leaf "name" "Ann"; leaf "tag" "x"] ++ unknownT :: [pageT; leaf "tag" "y"]))
    (OOk (annV ["x"; "y"] (Some pageV))).
Proof.
  split.
  - intros f H _. simpl in H. repeat (destruct H as [H|H]; [subst f; discriminate|]). destruct H.
  - apply (C13_unknown_element_partial x0 EP 0 0 person personFs).
    + split; reflexivity.
    + reflexivity.
    + intros f H _. simpl in H. repeat (destruct H as [H|H]; [subst f; discriminate|]). destruct H.
    + apply conforms_case.
    + apply reads_case.
Qed.

(** ** C14: attributes come from the struct's own start tag

    On conforming documents the value of an attribute field is determined by
    the attributes of the element itself.  Missing for the full claim: element
    content of simple fields that holds other elements, where the code loses
    count of the depth (see the refutation). *)
Theorem C14_own_start_tag_partial :
  forall x E k id td fs d n a m kids n' m' kids' i f vs vs',
    struct_type E id td fs -> nth_error fs i = Some f ->
    ya_attribute (f_attrs f) = true -> ya_text (f_attrs f) = false ->
    Conforms x E k id (Elem n a m kids) -> Conforms x E k id (Elem n' a m' kids') ->
    Reads x E id d (Elem n a m kids) (OOk (VRec vs)) ->
    Reads x E id d (Elem n' a m' kids') (OOk (VRec vs')) ->
    nth_error vs i = nth_error vs' i.
Proof. exact read_own_attrs. Qed.
Print Assumptions C14_own_start_tag_partial.

(** For simple types it is the collection of the parsed attribute values. *)
Theorem C14_attribute_value_partial :
  forall x E k id td fs d n a m kids i f s vs,
    struct_type E id td fs -> nth_error fs i = Some f ->
    ya_attribute (f_attrs f) = true -> ya_text (f_attrs f) = false ->
    base_of (f_ty f) = BSimple s ->
    Conforms x E k id (Elem n a m kids) ->
    Reads x E id d (Elem n a m kids) (OOk (VRec vs)) ->
    exists l, Forall2 (fun t v => visit_simple x s t = Ok v) (attr_texts f a) l /\
              nth_error vs i = collected x f l.
Proof. exact read_attr_values. Qed.
Print Assumptions C14_attribute_value_partial.

Example C14_case :
  let kids := [Elem (nm "name") [at1 "id" "8"] [] [Txt "Ann"]; Elem (nm "tag") [at1 "id" "9"] [] [Txt "x"]; unknownT] in
  Conforms x0 EP 0 0 (personT idA kids) /\
  Reads x0 EP 0 0 (personT idA kids) (OOk (annV ["x"] None)).
Proof. split; [conforms|reads]. Qed.

Definition C14_full : Prop :=
  forall x E fuel id td fs s s' n a m kids kids' i f vs vs',
    struct_type E id td fs -> nth_error fs i = Some f ->
    ya_attribute (f_attrs f) = true -> ya_text (f_attrs f) = false ->
    document s (Elem n a m kids) -> document s' (Elem n a m kids') ->
    from_str x E fuel id s = OOk (VRec vs) -> from_str x E fuel id s' = OOk (VRec vs') ->
    nth_error vs i = nth_error vs' i.

(** The inner element makes the depth counter return to 0, and the attribute
    of the next child replaces the one of the root. *)
Theorem C14_refuted : ~ C14_full.
Proof.
  intros H.
  specialize (H x0 EP 60 0 person personFs
    "<person id=""7""><name>Ann</name></person>"
    "<person id=""7""><age>1<b/></age><name id=""8"">Ann</name></person>"
    (nm "person") idA [] [leaf "name" "Ann"]
    [el "age" [Txt "1"; el "b" []]; Elem (nm "name") [at1 "id" "8"] [] [Txt "Ann"]]
    0 (fldA "id" (a_attr ya0) (tint I32))
    [VInt 7; VStr "Ann"; VVec []; VOpt None; VOpt None; VOpt None; VStr "my_default_value"]
    [VInt 8; VStr "Ann"; VVec []; VOpt None; VOpt None; VOpt None; VStr "my_default_value"]).
  assert (Hx : nth_error [VInt 7] 0 = nth_error [VInt 8] 0).
  { apply H; try reflexivity; try (split; reflexivity); vm_compute; reflexivity. }
  discriminate.
Qed.
Print Assumptions C14_refuted.
