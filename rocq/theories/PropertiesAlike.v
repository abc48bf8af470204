(** * C42: prefixes, namespace declarations and the order of attributes do not
      matter.

    Vocabulary: SpecAlike.v, SpecComplete.v ([markup]). *)
From Verif Require Import Str Num Xml XmlText Reader Schema De Ser Conform SpecTree SpecStruct SpecValue SpecTerm SpecComplete SpecAlike
  FitsCheck AlikeProofs AlikeTrees AlikeEvents PropertiesStruct.
Open Scope list_scope.

(** ** In full *)
Definition C42_full : Prop :=
  forall x E fuel id s s', same_document (parse_text s) (parse_text s') ->
    from_str x E fuel id s = from_str x E fuel id s'.

(** Attributes are recognised by their local names, so the last of two in
    different namespaces wins. *)
Ltac same_doc :=
  split; [vm_compute; repeat (apply Forall2_cons || apply Forall2_nil);
          (reflexivity || (split; [split; reflexivity|apply Permutation_refl || apply perm_swap]) || (split; reflexivity))
         |vm_compute; reflexivity].
Definition tagT := struct_ "Tag" ya0 [fldA "id" (a_attr ya0) tstr].
Theorem C42_refuted : ~ C42_full.
Proof.
  intros H.
  set (d1 := "<t xmlns:x=""u"" xmlns:y=""w"" x:id=""1"" y:id=""2""/>").
  set (d2 := "<t xmlns:x=""u"" xmlns:y=""w"" y:id=""2"" x:id=""1""/>").
  assert (H1 : from_str x0 [tagT] 20 0 d1 = OOk (VRec [VStr "2"])) by (vm_compute; reflexivity).
  assert (H2 : from_str x0 [tagT] 20 0 d2 = OOk (VRec [VStr "1"])) by (vm_compute; reflexivity).
  assert (Hd : same_document (parse_text d1) (parse_text d2)) by same_doc.
  rewrite (H x0 [tagT] 20 0 d1 d2 Hd), H2 in H1. discriminate.
Qed.
Print Assumptions C42_refuted.

(** With flattened fields, also because a binding that an outer element has is
    not declared again when the rest of the element is written, although an
    element in between changed it. *)
Definition deepE := [
  struct_ "S" ya0 [fldA "inner" (a_flatten ya0) (tuser 1)];
  struct_ "T" ya0 [fld "b" (tuser 2)];
  struct_ "B" (a_ns [("n", "u")] ya0) [fldA "c" (a_prefix "n" ya0) (TOpt (BSimple SString))]].
Theorem C42_rebound_refuted :
  ~ (forall x E fuel id s s', same_document (parse_text s) (parse_text s') ->
       Forall distinct_locals (markup (parse_text s)) -> from_str x E fuel id s = from_str x E fuel id s').
Proof.
  intros H.
  set (d1 := "<S xmlns:p=""u""><b xmlns:p=""v""><p:c xmlns:p=""u"">1</p:c></b></S>").
  set (d2 := "<S xmlns:p=""u""><b xmlns:q=""v""><p:c>1</p:c></b></S>").
  assert (H1 : from_str x0 deepE 40 0 d1 = OOk (VRec [VRec [VRec [VOpt None]]])) by (vm_compute; reflexivity).
  assert (H2 : from_str x0 deepE 40 0 d2 = OOk (VRec [VRec [VRec [VOpt (Some (VStr "1"))]]])) by (vm_compute; reflexivity).
  assert (Hd : same_document (parse_text d1) (parse_text d2)) by same_doc.
  rewrite (H x0 deepE 40 0 d1 d2 Hd), H2 in H1; [discriminate H1|].
  vm_compute. repeat (apply Forall_cons || apply Forall_nil || apply NoDup_nil || exact I).
Qed.
Print Assumptions C42_rebound_refuted.

(** Missing for the full claim: types with flattened fields (see below), and
    elements with attributes of the same local name in different namespaces. *)
Theorem C42_same_document_partial :
  forall x E fuel id s s', unflattened E -> same_document (parse_text s) (parse_text s') ->
    Forall distinct_locals (markup (parse_text s)) ->
    from_str x E fuel id s = from_str x E fuel id s'.
Proof. exact same_texts. Qed.
Print Assumptions C42_same_document_partial.

(** More generally: only the order of attributes with the same local name
    counts, and not even their namespaces do. *)
Theorem C42_alike_partial :
  forall x E fuel id s s', unflattened E -> alike_source (parse_text s) (parse_text s') ->
    from_str x E fuel id s = from_str x E fuel id s'.
Proof. exact alike_texts. Qed.
Print Assumptions C42_alike_partial.

(** The same for the sources a parser delivers. *)
Theorem C42_events_partial :
  forall x E fuel id s s', unflattened E -> parsed_source s -> parsed_source s' -> alike_source s s' ->
    from_events x E fuel id s = from_events x E fuel id s'.
Proof. exact alike_events. Qed.
Print Assumptions C42_events_partial.

(** Prefix [p] against a default namespace, attributes exchanged, a comment
    added. *)
Definition bookT := struct_ "Book"
  (YAttr false None None false [("p", "urn:b")] (Some "p") None None false None false false)
  [fldA "id" (a_attr ya0) (tint I32); fldA "lang" (a_attr ya0) tstr;
   fldA "title" (YAttr false None None false [] (Some "p") None None false None false false) tstr].
Definition doc1 : string := "<p:Book xmlns:p=""urn:b"" id=""7"" lang=""en""><p:title>T</p:title></p:Book>".
Definition doc2 : string := "<Book xmlns=""urn:b"" lang=""en"" id=""7""><!-- c --><title>T</title></Book>".
Example C42_case :
  unflattened [bookT] /\ same_document (parse_text doc1) (parse_text doc2) /\
  Forall distinct_locals (markup (parse_text doc1)) /\
  from_str x0 [bookT] 40 0 doc1 = OOk (VRec [VInt 7; VStr "en"; VStr "T"]) /\
  from_str x0 [bookT] 40 0 doc2 = OOk (VRec [VInt 7; VStr "en"; VStr "T"]).
Proof.
  split; [|split; [|split; [|split; vm_compute; reflexivity]]].
  - intros td fs [<-|[]] H. inversion H. reflexivity.
  - same_doc.
  - vm_compute. repeat (apply Forall_cons || apply Forall_nil || apply NoDup_cons || apply NoDup_nil || exact I); intros H; repeat (destruct H as [H|H]; try discriminate); contradiction.
Qed.

(** ** With flattened fields

    For documents meeting [Conforms] in which no prefix changes its meaning.
    Missing for the full claim: other documents (see [C42_rebound_refuted]). *)
Theorem C42_flattened_partial :
  forall x E k id s s' t t', alike_source (parse_text s) (parse_text s') ->
    markup (parse_text s) = flat t -> markup (parse_text s') = flat t' ->
    Steady [] t -> Steady [] t' -> Conforms x E k id t -> Conforms x E k id t' ->
    exists N, forall fuel, N <= fuel -> from_str x E fuel id s = from_str x E fuel id s'.
Proof. exact alike_flattened. Qed.
Print Assumptions C42_flattened_partial.

(** Two prefixes against one and a default namespace, attributes exchanged. *)
Definition flat1 : string := "<S xmlns:p=""u"" i=""1"" j=""2""><b xmlns:q=""u""><q:c>x</q:c></b></S>".
Definition flat2 : string := "<S j=""2"" i=""1""><b><c xmlns=""u"">x</c></b></S>".
Definition flat1T : node :=
  Elem (nm "S") [at1 "i" "1"; at1 "j" "2"] [("p", "u")]
    [Elem (nm "b") [] [("p", "u"); ("q", "u")] [Elem (Name "c" (Some "u") (Some "q")) [] [("p", "u"); ("q", "u")] [Txt "x"]]].
Definition flat2T : node :=
  Elem (nm "S") [at1 "j" "2"; at1 "i" "1"] []
    [Elem (nm "b") [] [] [Elem (Name "c" (Some "u") None) [] [("", "u")] [Txt "x"]]].
Example C42_flattened_case :
  alike_source (parse_text flat1) (parse_text flat2) /\
  markup (parse_text flat1) = flat flat1T /\ markup (parse_text flat2) = flat flat2T /\
  Steady [] flat1T /\ Steady [] flat2T /\ Conforms x0 deepE 1 0 flat1T /\ Conforms x0 deepE 1 0 flat2T /\
  from_str x0 deepE 40 0 flat1 = OOk (VRec [VRec [VRec [VOpt (Some (VStr "x"))]]]).
Proof.
  assert (Hs : forall o n a m ks, (forall p u, ns_get o p = Some u -> ns_get m p = Some u) ->
    Forall (Steady m) ks -> Steady o (Elem n a m ks)).
  { intros o n a m ks H1 H2. apply steady_elem; [exact H1|]. apply Forall_forall. exact H2. }
  split; [|split; [vm_compute; reflexivity|split; [vm_compute; reflexivity|]]].
  { apply alike_same.
    - same_doc.
    - vm_compute. repeat (apply Forall_cons || apply Forall_nil || apply NoDup_cons || apply NoDup_nil || exact I);
        intros H; repeat (destruct H as [H|H]; try discriminate); contradiction. }
  split; [|split; [|split; [|split; [|vm_compute; reflexivity]]]].
  - apply Hs; [discriminate|]. constructor; [|constructor]. apply Hs.
    { intros p u. cbn [ns_get]. destruct (String.eqb "p" p); [auto|discriminate]. }
    constructor; [|constructor]. apply Hs; [auto|]. repeat constructor.
  - apply Hs; [discriminate|]. constructor; [|constructor]. apply Hs; [auto|]. constructor; [|constructor].
    apply Hs; [discriminate|]. repeat constructor.
  - apply (conformsb_ok x0 deepE 9). vm_compute. reflexivity.
  - apply (conformsb_ok x0 deepE 9). vm_compute. reflexivity.
Qed.
