(** * C11-C13, C15 and C16 in full, and why they are false of the model.

    The proved parts are in PropertiesStruct.v and PropertiesStruct2.v.  Each
    claim below is the one of the property list, without the restrictions of
    the [_partial] theorems, and is refuted by documents. *)
From Verif Require Import Str Num Xml XmlText Reader Schema De Ser Conform SpecTree SpecText SpecValue ValueProofs SpecStruct
  StructReads FitsCheck PropertiesStruct.
Open Scope list_scope.

(** ** C11 *)
Definition C11_full : Prop :=
  forall x E k id td fs d n a m kids kids' o o',
    struct_type E id td fs -> same_but_order kids kids' ->
    Conforms x E k id (Elem n a m kids) -> Conforms x E k id (Elem n a m kids') ->
    Reads x E id d (Elem n a m kids) o -> Reads x E id d (Elem n a m kids') o' -> o = o'.

(** The elements of an item that belong to no field are handed to its flattened
    enum, which takes the last one. *)
Definition shapeT := enum_ "Shape" ya0 [vnew "round" (tint I32); vnew "square" (tint I32); vunit "none"] (VVar 2 []).
Definition itemT := struct_ "Item" ya0
  [fld "name" tstr; fld "size" (TOpt (BSimple (SInt I32))); fldA "shape" (a_flatten ya0) (tuser 1)].
Definition itemFs := match t_body itemT with DStruct fs => fs | _ => [] end.
Definition EI := [itemT; shapeT].
Definition two (a b : string) := el "item" [leaf "name" "n"; leaf a "1"; leaf b "1"].
Theorem C11_refuted : ~ C11_full.
Proof.
  intros H.
  assert (C : forall a b, In (a, b) [("round", "square"); ("square", "round")] -> Conforms x0 EI 1 0 (two a b)).
  { intros a b [Hi|[Hi|[]]]; injection Hi as <- <-; apply (conformsb_ok x0 EI 9); vm_compute; reflexivity. }
  cut (OOk (VRec [VStr "n"; VOpt None; VVar 1 [VInt 1]]) = OOk (VRec [VStr "n"; VOpt None; VVar 0 [VInt 1]])); [discriminate|].
  eapply (H x0 EI 1 0 itemT itemFs 0 (nm "item") [] []
    [leaf "name" "n"; leaf "round" "1"; leaf "square" "1"] [leaf "name" "n"; leaf "square" "1"; leaf "round" "1"]).
  - split; reflexivity.
  - split; [reflexivity|].
    intros [u l]. cbv -[String.eqb]. destruct (String.eqb "" u); [|reflexivity].
    destruct (String.eqb "name" l), (String.eqb "round" l) eqn:H1, (String.eqb "square" l) eqn:H2; try reflexivity;
      apply String.eqb_eq in H1; apply String.eqb_eq in H2; subst; discriminate.
  - apply C. left. reflexivity.
  - apply C. right. left. reflexivity.
  - apply (read_decode x0 EI 1); [apply C; left; reflexivity|vm_compute; reflexivity].
  - apply (read_decode x0 EI 1); [apply C; right; left; reflexivity|vm_compute; reflexivity].
Qed.
Print Assumptions C11_refuted.

(** Without flattened fields: an element named like a text field supplies that
    field as well. *)
Definition C11_unflattened : Prop :=
  forall x E k id td fs d n a m kids kids' o o',
    struct_type E id td fs -> flattens fs = false -> same_but_order kids kids' ->
    Conforms x E k id (Elem n a m kids) -> Conforms x E k id (Elem n a m kids') ->
    Reads x E id d (Elem n a m kids) o -> Reads x E id d (Elem n a m kids') o' -> o = o'.
Theorem C11_text_refuted : ~ C11_unflattened.
Proof.
  intros H. set (note t := VOpt (Some (VStr t))).
  set (v t := VRec [VInt 7; VStr "Ann"; VVec []; VOpt None; VOpt None; note t; VStr "my_default_value"]).
  assert (Hv : OOk (v "x") = OOk (v "t")); [|discriminate Hv].
  eapply (H x0 EP 0 0 person personFs 0 (nm "person") idA []
    [leaf "name" "Ann"; Txt "t"; leaf "note" "x"] [leaf "note" "x"; Txt "t"; leaf "name" "Ann"]).
  - split; reflexivity.
  - reflexivity.
  - split; [reflexivity|].
    intros [u l]. cbv -[String.eqb]. destruct (String.eqb "" u); [|reflexivity].
    destruct (String.eqb "name" l) eqn:H1, (String.eqb "note" l) eqn:H2; try reflexivity.
    apply String.eqb_eq in H1; apply String.eqb_eq in H2; subst; discriminate.
  - conforms.
  - conforms.
  - reads.
  - reads.
Qed.
Print Assumptions C11_text_refuted.

(** ** C12: the content of an element of simple type is searched as well. *)
Definition C12_full : Prop :=
  forall x E fuel id td fs s n a m kids i f vs,
    struct_type E id td fs -> first_labelled (t_attrs td) fs i f -> ya_text (f_attrs f) = false ->
    document s (Elem n a m kids) -> from_str x E fuel id s = OOk (VRec vs) ->
    exists l, Items x E 1 (t_attrs td) f kids l /\ nth_error vs i = collected x f l.
Theorem C12_refuted : ~ C12_full.
Proof.
  intros H. set (f := fld "tag" (TVec (BSimple SString))).
  destruct (H x0 EP 60 0 person personFs
    "<person id=""7""><name>Ann</name><age>1<b/><tag>q</tag></age></person>"
    (nm "person") idA [] [leaf "name" "Ann"; el "age" [Txt "1"; el "b" []; leaf "tag" "q"]] 2 f
    [VInt 7; VStr "Ann"; VVec [VStr "q"]; VOpt None; VOpt None; VOpt None; VStr "my_default_value"]) as (l & Hi & Hn).
  - split; reflexivity.
  - split; [reflexivity|]. split; [split; reflexivity|].
    intros [|[|[|j]]] g Hj Hg He; try (exfalso; lia); injection Hg as <-; [destruct He; discriminate|discriminate].
  - reflexivity.
  - vm_compute; reflexivity.
  - vm_compute; reflexivity.
  - assert (l = []) as ->.
    { inversion Hi as [| |? ? ? ? ? ? _ Hi2| | |]; subst; try discriminate.
      inversion Hi2 as [| |? ? ? ? ? ? _ Hi3| | |]; subst; try discriminate. inversion Hi3. reflexivity. }
    discriminate.
Qed.
Print Assumptions C12_refuted.

(** ** C13: after an element of simple type that holds an element, the start tag
    of the next element is taken for the struct's own. *)
Definition C13_full : Prop :=
  forall x E fuel fuel' id td fs s s' n a m k1 kn ka km kk k2 v v',
    struct_type E id td fs ->
    (forall f, In f fs -> elem_field f -> flabel (t_attrs td) f <> elabel kn) ->
    document s (Elem n a m (k1 ++ k2)) -> document s' (Elem n a m (k1 ++ Elem kn ka km kk :: k2)) ->
    from_str x E fuel id s = OOk v -> from_str x E fuel' id s' = OOk v' -> v = v'.
Theorem C13_refuted : ~ C13_full.
Proof.
  intros H.
  set (v i := VRec [VInt i; VStr "Ann"; VVec []; VOpt None; VOpt None; VOpt None; VStr "my_default_value"]).
  assert (Hv : v 7%Z = v 8%Z); [|discriminate Hv].
  eapply (H x0 EP 60 60 0 person personFs
    "<person id=""7""><age>1<b/></age><name>Ann</name></person>"
    "<person id=""7""><age>1<b/></age><zz id=""8""/><name>Ann</name></person>"
    (nm "person") idA [] [el "age" [Txt "1"; el "b" []]] (nm "zz") [at1 "id" "8"] [] [] [leaf "name" "Ann"]).
  - split; reflexivity.
  - intros f Hf _. simpl in Hf. repeat (destruct Hf as [<-|Hf]; [discriminate|]). destruct Hf.
  - vm_compute; reflexivity.
  - vm_compute; reflexivity.
  - vm_compute; reflexivity.
  - vm_compute; reflexivity.
Qed.
Print Assumptions C13_refuted.

(** ** C15: the flattened enum sees the root element too. *)
Definition C15_full : Prop :=
  forall x E fuel fuel' id td fs s s' n n' a m m' kids v v',
    struct_type E id td fs ->
    (forall f, In f fs -> flabel (t_attrs td) f <> elabel n /\ flabel (t_attrs td) f <> elabel n') ->
    n_ns n = None -> n_ns n' = None ->
    document s (Elem n a m kids) -> document s' (Elem n' a m' kids) ->
    from_str x E fuel id s = OOk v -> from_str x E fuel' id s' = OOk v' -> v = v'.
Theorem C15_refuted : ~ C15_full.
Proof.
  intros H.
  assert (Hv : VRec [VStr "a"; VOpt None; VVar 1 [VInt 2]] = VRec [VStr "a"; VOpt None; VVar 2 []]); [|discriminate Hv].
  eapply (H x0 EI 90 90 0 itemT itemFs
    "<item><name>a</name><square>2</square></item>" "<none><name>a</name><square>2</square></none>"
    (nm "item") (nm "none") [] [] [] [leaf "name" "a"; leaf "square" "2"]).
  - split; reflexivity.
  - intros f Hf. simpl in Hf. repeat (destruct Hf as [<-|Hf]; [split; discriminate|]). destruct Hf.
  - reflexivity.
  - reflexivity.
  - vm_compute; reflexivity.
  - vm_compute; reflexivity.
  - vm_compute; reflexivity.
  - vm_compute; reflexivity.
Qed.
Print Assumptions C15_refuted.

(** ** C16: with a flattened field, an unparseable size makes the rest of the
    item unreadable. *)
Definition C16_full : Prop :=
  forall x E fuel fuel' id td fs s s' n a m k1 kn ka km t e k2 i f b v,
    struct_type E id td fs -> first_labelled (t_attrs td) fs i f -> elabel kn = flabel (t_attrs td) f ->
    base_of (f_ty f) = BSimple b -> visit_simple x b t = Er e ->
    document s (Elem n a m (k1 ++ k2)) -> document s' (Elem n a m (k1 ++ Elem kn ka km [Txt t] :: k2)) ->
    from_str x E fuel id s = OOk v -> forall e', from_str x E fuel' id s' <> OErr e'.
Theorem C16_refuted : ~ C16_full.
Proof.
  intros H. set (f := fld "size" (TOpt (BSimple (SInt I32)))).
  eapply (H x0 EI 90 90 0 itemT itemFs
    "<item><name>a</name><square>2</square><round>1</round></item>"
    "<item><size>x</size><name>a</name><square>2</square><round>1</round></item>"
    (nm "item") [] [] [] (nm "size") [] [] "x" "invalid digit found in string"
    [leaf "name" "a"; leaf "square" "2"; leaf "round" "1"] 1 f (SInt I32)).
  - split; reflexivity.
  - split; [reflexivity|]. split; [split; reflexivity|].
    intros [|j] g Hj Hg He; [|exfalso; lia]. injection Hg as <-. discriminate.
  - reflexivity.
  - reflexivity.
  - vm_compute; reflexivity.
  - vm_compute; reflexivity.
  - vm_compute; reflexivity.
  - vm_compute; reflexivity.
  - vm_compute; reflexivity.
Qed.
Print Assumptions C16_refuted.
