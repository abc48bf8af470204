(** * Unknown content anywhere, and flattened fields: more of C10, C13, C15.

    Vocabulary: SpecInsert.v.  Structs with flattened fields are covered: the
    types of these fields must not know the new element or attribute either. *)
From Verif Require Import Str Num Xml XmlText Reader Schema De Conform SpecTree SpecText SpecValue SpecStruct SpecInsert
  FitsCheck InsertProofs PropertiesStruct PropertiesFlat.
Open Scope list_scope.

(** ** C13: unknown content is ignored

    At any depth and with flattened fields.  Missing for the full claim:
    documents that do not meet [Conforms]; elements that separate two texts,
    with flattened fields; elements in another namespace whose local name is
    that of a field of a flattened type. *)
Theorem C13_anywhere_partial :
  forall x E k id d t t' o, Inserted E id t t' ->
    Conforms x E k id t -> Conforms x E k id t' ->
    (Reads x E id d t' o <-> Reads x E id d t o).
Proof. intros x E. exact (inserted_read x E). Qed.
Print Assumptions C13_anywhere_partial.

(** The struct of [C34_read_case]: an element between those of the fields, an
    attribute of the flattened type's element, one of a payload's element. *)
Definition S_elem a kids := Elem (nm "S") a [] kids.
Definition unknownE := el "w" [leaf "a" "no"; Txt "t"; leaf "b" "7"].
Definition someKids := [leaf "a" "x"; leaf "b" "1"; el "k" [leaf "B" "t"]].
Example C13_anywhere_case :
  Inserted EF 0 (S_elem [at1 "c" "q"] ([leaf "a" "x"] ++ [leaf "b" "1"; el "k" [leaf "B" "t"]]))
                (S_elem [at1 "c" "q"] ([leaf "a" "x"] ++ unknownE :: [leaf "b" "1"; el "k" [leaf "B" "t"]])) /\
  Inserted EF 0 (S_elem ([at1 "c" "q"] ++ []) someKids) (S_elem ([at1 "c" "q"] ++ at1 "e" "1" :: []) someKids) /\
  Inserted EF 0 (S_elem [at1 "c" "q"] ([leaf "a" "x"; leaf "b" "1"] ++ Elem (nm "k") ([] ++ []) [] [leaf "B" "t"] :: []))
                (S_elem [at1 "c" "q"] ([leaf "a" "x"; leaf "b" "1"] ++ Elem (nm "k") ([] ++ at1 "e" "1" :: []) [] [leaf "B" "t"] :: [])) /\
  (forall t, In t [S_elem [at1 "c" "q"] someKids; S_elem [at1 "c" "q"] (leaf "a" "x" :: unknownE :: tl someKids);
                   S_elem [at1 "c" "q"; at1 "e" "1"] someKids;
                   S_elem [at1 "c" "q"] [leaf "a" "x"; leaf "b" "1"; Elem (nm "k") [at1 "e" "1"] [] [leaf "B" "t"]]] ->
     Conforms x0 EF 1 0 t /\ Reads x0 EF 0 0 t (OOk outerV)).
Proof.
  assert (fl : forall f id', In f outerFs -> flat_field f = true -> base_of (f_ty f) = BUser id' -> id' = 1).
  { intros f id' [<-|[<-|[<-|[]]]] Hf Hb; try discriminate. injection Hb as <-. reflexivity. }
  assert (fl1 : forall f id', In f (match t_body inner with DStruct fs => fs | _ => [] end) -> flat_field f = true -> base_of (f_ty f) = BUser id' -> False).
  { intros f id' [<-|[<-|[]]] Hf; discriminate. }
  split; [|split; [|split]].
  - apply (ins_elem EF 0 outer outerFs).
    + split; reflexivity.
    + intros f [<-|[<-|[<-|[]]]] [Ha Hf]; discriminate.
    + intros f id' Hin Hf Hb. rewrite (fl f id' Hin Hf Hb). eapply (indiff_struct _ _ 1 inner); [split; reflexivity| |].
      * intros g [<-|[<-|[]]] [Hg _]; discriminate.
      * intros g i Hg Hgf Hgb. destruct (fl1 g i Hg Hgf Hgb).
    + intros _. left. intros s [H|[]]; discriminate.
  - apply ins_attr. eapply (careless_struct _ _ 0 outer outerFs); [split; reflexivity| |].
    + intros f [<-|[<-|[<-|[]]]] Ha; discriminate.
    + intros f id' Hin Hf Hb. rewrite (fl f id' Hin Hf Hb). eapply (careless_struct _ _ 1 inner); [split; reflexivity| |].
      * intros g [<-|[<-|[]]] Hg; discriminate.
      * intros g i Hg Hgf Hgb. destruct (fl1 g i Hg Hgf Hgb).
  - eapply (ins_field EF 0 outer outerFs _ _ _ _ (nm "k") _ _ _ _ _ _ 2 (fld "k" (TOpt (BUser 2))) 2); try reflexivity.
    + split; reflexivity.
    + split; [reflexivity|]. split; [split; reflexivity|]. intros [|[|[|j]]] g Hj Hg [Ha Hf]; try lia; injection Hg as <-; discriminate.
    + apply ins_attr. eapply (careless_enum _ _ 2 kindP); [reflexivity|reflexivity|discriminate].
  - intros t Ht.
    assert (Hc : Conforms x0 EF 1 0 t).
    { destruct Ht as [<-|[<-|[<-|[<-|[]]]]]; apply (conformsb_ok x0 EF 9); vm_compute; reflexivity. }
    split; [exact Hc|]. apply (StructReads.read_decode x0 EF 1); [exact Hc|].
    destruct Ht as [<-|[<-|[<-|[<-|[]]]]]; vm_compute; reflexivity.
Qed.

(** ** C15: the local name of the root element

    With flattened fields, for names that differ in their local part only.
    Missing for the full claim: names for which the element does not meet
    [Conforms] (a flattened enum takes the name for a variant, see
    [C15_refuted]). *)
Theorem C15_flattened_partial :
  forall x E k id d n n' a m kids v, n_prefix n = n_prefix n' -> n_ns n = n_ns n' ->
    Conforms x E k id (Elem n a m kids) -> Conforms x E k id (Elem n' a m kids) ->
    Reads x E id d (Elem n a m kids) (OOk v) -> Reads x E id d (Elem n' a m kids) (OOk v).
Proof. intros x E. exact (renamed_read x E). Qed.
Print Assumptions C15_flattened_partial.
Example C15_flattened_case :
  Conforms x0 EF 1 0 (Elem (nm "S") [at1 "c" "q"] [] outerKids) /\
  Conforms x0 EF 1 0 (Elem (nm "root") [at1 "c" "q"] [] outerKids) /\
  Reads x0 EF 0 0 (Elem (nm "root") [at1 "c" "q"] [] outerKids) (OOk outerV).
Proof.
  assert (Hc : forall s, In s ["S"; "root"] -> Conforms x0 EF 1 0 (Elem (nm s) [at1 "c" "q"] [] outerKids)).
  { intros s [<-|[<-|[]]]; apply (conformsb_ok x0 EF 9); vm_compute; reflexivity. }
  split; [apply Hc; cbn; auto|]. split; [apply Hc; cbn; auto|].
  apply (StructReads.read_decode x0 EF 1); [apply Hc; cbn; auto|vm_compute; reflexivity].
Qed.

(** ** C10: a required attribute

    As [C10_required_attribute_partial], for structs with flattened fields. *)
Theorem C10_required_attribute_flattened_partial :
  forall x E k id td fs d n a1 b a2 m kids i f v,
    struct_type E id td fs -> nth_error fs i = Some f ->
    missing_value x f = None ->
    unsupplied (t_attrs td) f (a1 ++ a2) kids ->
    (forall j g, j <> i -> nth_error fs j = Some g -> ya_attribute (f_attrs g) = true ->
       n_local (at_name b) <> field_name g) ->
    (forall g id', In g fs -> flat_field g = true -> base_of (f_ty g) = BUser id' ->
       Careless E (n_local (at_name b)) id') ->
    Conforms x E k id (Elem n (a1 ++ b :: a2) m kids) -> Conforms x E k id (Elem n (a1 ++ a2) m kids) ->
    Reads x E id d (Elem n (a1 ++ b :: a2) m kids) (OOk v) ->
    Reads x E id d (Elem n (a1 ++ a2) m kids) (OErr (f_label f +++ " is a required field of " +++ t_name td)).
Proof. intros x E. exact (required_attr_read x E). Qed.
Print Assumptions C10_required_attribute_flattened_partial.
Definition idE := [struct_ "S" ya0 [fldA "id" (a_attr ya0) (tint I32); fldA "inner" (a_flatten ya0) (tuser 1)]; inner].
Example C10_required_attribute_flattened_case :
  let t a := Elem (nm "S") a [] [leaf "b" "1"] in
  Conforms x0 idE 1 0 (t [at1 "c" "q"; at1 "id" "5"]) /\ Conforms x0 idE 1 0 (t [at1 "c" "q"]) /\
  Careless idE "id" 1 /\
  Reads x0 idE 0 0 (t [at1 "c" "q"; at1 "id" "5"]) (OOk (VRec [VInt 5; VRec [VInt 1; VStr "q"]])) /\
  from_str x0 idE fuel 0 "<S c=""q""><b>1</b></S>" = OErr "id is a required field of S".
Proof.
  intros t.
  assert (Hc : forall a, In a [[at1 "c" "q"; at1 "id" "5"]; [at1 "c" "q"]] -> Conforms x0 idE 1 0 (t a)).
  { intros a [<-|[<-|[]]]; apply (conformsb_ok x0 idE 9); vm_compute; reflexivity. }
  split; [apply Hc; cbn; auto|]. split; [apply Hc; cbn; auto|]. split.
  { eapply (careless_struct _ _ 1 inner); [split; reflexivity| |].
    - intros g [<-|[<-|[]]] Hg; discriminate.
    - intros g i [<-|[<-|[]]] Hf; discriminate. }
  split; [|vm_compute; reflexivity].
  apply (StructReads.read_decode x0 idE 1); [apply Hc; cbn; auto|vm_compute; reflexivity].
Qed.
