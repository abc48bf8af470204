(** * C62, C63: writing and reading, said on document trees.

    Vocabulary: SpecEnc.v ([encode]: the trees of a value, by recursion on the
    value, without serializer or state), SpecTree.v and SpecValue.v
    ([value_of]: the value of a tree, by recursion on the tree, without reader
    or state; [Conforms]), SpecXml.v ([xml_document], [denotes]). *)
From Verif Require Import Str Num Xml XmlText Reader Schema De Ser Conform SpecTree SpecText SpecValue SpecEnc SpecXml
  FitsCheck FuelProofs EncProofs ValueProofs DenoteProofs.
Open Scope list_scope.

(** ** C62 *)

(** What is written for a value are the trees of the value; there is an error,
    or the value is not of its type, exactly when it has no trees. *)
Theorem C62_events :
  forall x E id v,
  match encode x E id v (Under None) with
  | Some ts => ser_events x E id v = SOk (flat_map wtree ts)
  | None => forall l, ser_events x E id v <> SOk l
  end.
Proof. exact ser_events_encode. Qed.
Print Assumptions C62_events.

Lemma config_encode : forall x E c id v s,
  to_string_with_config x E c id v = SOk s <->
  exists ts, encode x E id v (Under None) = Some ts /\ s = emit_text (econf_of c) (flat_map wtree ts).
Proof.
  intros x E c id v s. unfold to_string_with_config. pose proof (ser_events_encode x E id v) as H.
  destruct (encode x E id v (Under None)) as [ts|].
  - rewrite H. cbn. split; [intros [= <-]; eauto|intros (ts' & [= <-] & ->); reflexivity].
  - split; [|intros (ts' & Hn & _); discriminate Hn].
    destruct (ser_events x E id v) as [l|m|]; cbn; try discriminate. destruct (H l eq_refl).
Qed.
Theorem C62_text :
  forall x E c id v s,
  to_string_with_config x E c id v = SOk s <->
  exists ts, encode x E id v (Under None) = Some ts /\ s = emit_text (econf_of c) (flat_map wtree ts).
Proof. exact config_encode. Qed.
Print Assumptions C62_text.

(** Attributes, optional and repeated fields, an enum and a flattened struct. *)
Definition nm62 (s : string) := Name s None None.
Definition E62 : env :=
  [struct_ "Shelf" ya0 [fldA "id" (a_attr ya0) (tint U8); fldA "books" (a_rename "book" ya0) (TVec (BUser 1));
     fldA "place" (a_flatten ya0) (tuser 3); fld "note" (TOpt (BSimple SString))];
   struct_ "Book" ya0 [fld "title" tstr; fld "kind" (tuser 2)];
   enum_ "Kind" ya0 [vunit "Novel"; vnew "Other" (TBase (BSimple SString))] (VVar 0 []);
   struct_ "Place" ya0 [fld "room" tstr]].
Definition V62 : value :=
  VRec [VInt 7; VVec [VRec [VStr "A"; VVar 0 []]; VRec [VStr "B<"; VVar 1 [VStr "x"]]]; VRec [VStr "r"]; VOpt None].
Example C62_case :
  encode x0 E62 0 V62 (Under None) =
    Some [WElem (nm62 "Shelf") [Attr (nm62 "id") "7"] []
           [WElem (nm62 "book") [] [] [text_elem "title" "A"; WElem (nm62 "kind") [] [] [WTxt "Novel"]];
            WElem (nm62 "book") [] [] [text_elem "title" "B<"; WElem (nm62 "kind") [] [] [text_elem "Other" "x"]];
            text_elem "room" "r"]].
Proof. vm_compute. reflexivity. Qed.

(** ** C63 *)

(** In full: a type reads the value of the tree, from every tree. *)
Definition C63_full : Prop :=
  forall x E id t d, exists k, Reads x E id d t (value_of x E k (Nat.eqb d 0) id t).

(** An element of a simple field that holds an element of the same name. *)
Definition odd63 : node := Elem (nm62 "a") [] [] [Elem (nm62 "b") [] [] [Elem (nm62 "b") [] [] [Txt "1"]]].
Theorem C63_nested_refuted : ~ C63_full.
Proof.
  intros H. destruct (H x0 [struct_ "a" ya0 [fld "b" tstr]] 0 odd63 0) as [k Hk].
  apply Reads_doc in Hk. destruct Hk as [N Hk]. specialize (Hk (60 + N) (Nat.le_add_l N 60) [] FEnd). rewrite app_nil_r in Hk.
  assert (Hr : from_events x0 [struct_ "a" ya0 [fld "b" tstr]] 60 0 (Stream (EStartDoc :: flat odd63) FEnd) = OOk (VRec [VStr "1"]))
    by (vm_compute; reflexivity).
  rewrite (fuel_more _ _ _ _ 60 (60 + N) (Nat.le_add_r 60 N)), Hr in Hk; [|rewrite Hr; discriminate].
  assert (Hv : value_of x0 [struct_ "a" ya0 [fld "b" tstr]] k (Nat.eqb 0 0) 0 odd63 = OErr "b is a required field of a")
    by (destruct k; vm_compute; reflexivity).
  rewrite Hv in Hk. discriminate Hk.
Qed.
Print Assumptions C63_nested_refuted.

(** For trees that fit the types, whether they are the document or an element
    inside of it, whatever comes after them, and also if the result is an error
    or a panic.  Missing for the full claim: the trees that do not fit. *)
Theorem C63_tree_partial :
  forall x E k id t d, Conforms x E k id t -> Reads x E id d t (value_of x E k (Nat.eqb d 0) id t).
Proof. exact value_read. Qed.
Print Assumptions C63_tree_partial.

Lemma document_value : forall x E k id u s t, xml_document u s -> denotes no_scope u t -> Conforms x E k id t ->
  exists N, forall fuel, N <= fuel -> from_str x E fuel id s = value_of x E k true id t.
Proof. intros x E k id u s t Hs Hd Hc. exact (document_reads x E id u s t _ Hs Hd (value_read x E k id t 0 Hc)). Qed.
Theorem C63_text_partial :
  forall x E k id u s t, xml_document u s -> denotes no_scope u t -> Conforms x E k id t ->
  exists N, forall fuel, N <= fuel -> from_str x E fuel id s = value_of x E k true id t.
Proof. exact document_value. Qed.
Print Assumptions C63_text_partial.

Definition T63 : node :=
  Elem (nm62 "Shelf") [Attr (nm62 "id") "7"] []
    [Elem (nm62 "book") [] [] [Elem (nm62 "kind") [] [] [Txt "Novel"]; Elem (nm62 "title") [] [] [Txt "A"]; Elem (nm62 "x") [] [] [Txt "y"]];
     Elem (nm62 "room") [] [] [Txt "r"];
     Elem (nm62 "book") [] [] [Elem (nm62 "title") [] [] [Txt "B<"]; Elem (nm62 "kind") [] [] [Elem (nm62 "Other") [] [] [Txt "x"]]]].
Example C63_case :
  Conforms x0 E62 2 0 T63 /\ value_of x0 E62 2 true 0 T63 = OOk V62 /\
  Conforms x0 E62 2 1 (Elem (nm62 "book") [] [] [Elem (nm62 "title") [] [] []]) /\
  value_of x0 E62 2 true 1 (Elem (nm62 "book") [] [] [Elem (nm62 "title") [] [] []]) = OErr "title is a required field of Book".
Proof.
  split; [apply (conformsb_ok x0 E62 9); vm_compute; reflexivity|]. split; [vm_compute; reflexivity|].
  split; [apply (conformsb_ok x0 E62 9); vm_compute; reflexivity|vm_compute; reflexivity].
Qed.
