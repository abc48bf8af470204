(** * C53: a nested element is read like a document of its own. *)
From Verif Require Import Str Num Xml XmlText Reader Schema De Ser Conform SpecStruct SpecComplete LocalProofs
  PropertiesStruct PropertiesComplete.
Open Scope list_scope.

(** ** In full
    Wherever a type is read from a complete element [n], the outcome is the
    one of reading the element alone. *)
Definition C53_full : Prop :=
  forall x E fuel id n a m c st rest f,
    content c -> d_peeked st = None -> d_src st = Stream (EStart n a m :: c ++ EEnd n :: rest) f ->
    fst (run (de x E fuel id) st) =
    from_events x E fuel id (Stream (EStart n a m :: c ++ [EEnd n]) FEnd).

(** Only the root element of a document is checked for the namespace of the
    struct; an element of another namespace is accepted further down. *)
Definition addressT : typedef :=
  struct_ "Address" (a_prefix "a" (a_ns [("a", "urn:a")] ya0)) [fld "zip" tstr].
Definition homeN := Name "home" (Some "urn:b") None.
Definition zip1 := [EStart (nm "zip") [] []; EChars "75001"; EEnd (nm "zip")].
Definition homeEl := EStart homeN [] [] :: zip1 ++ [EEnd homeN].
Theorem C53_refuted : ~ C53_full.
Proof.
  intros H.
  assert (Hc : content zip1) by (apply (content_elem (nm "zip") [] [] [EChars "75001"] []); repeat constructor).
  specialize (H x0 [addressT] 30 0 homeN [] [] zip1 (DState 1 (Stream homeEl FEnd) None) [] FEnd Hc eq_refl eq_refl).
  vm_compute in H. discriminate H.
Qed.
Print Assumptions C53_refuted.

(** ** What holds
    Missing for the full claim: reading the element alone has to succeed
    without the end of the document.  The type, the content [c], the depth and
    what follows are arbitrary; the number of elements that are still open
    afterwards is the same, too. *)
Theorem C53_nested_partial :
  forall x E fuel id td n a m c f v st rest f',
    nth_error E id = Some td -> ya_flatten (t_attrs td) = false \/ f <> FEnd ->
    let alone := run (de x E fuel id) (d_init (Stream (EStart n a m :: c ++ [EEnd n]) f)) in
    fst alone = OOk v ->
    d_peeked st = None -> d_src st = Stream (EStart n a m :: c ++ EEnd n :: rest) f' ->
    fst (run (de x E fuel id) st) = OOk v /\
    d_depth (snd (run (de x E fuel id) st)) = d_depth st + d_depth (snd alone).
Proof. exact nested_alone. Qed.
Print Assumptions C53_nested_partial.

(** An address in its own namespace, alone and three elements down, with a
    syntax error behind it. *)
Definition homeA := Name "home" (Some "urn:a") (Some "a").
Example C53_case :
  let E := [addressT] in
  let alone := run (de x0 E 30 0) (d_init (Stream (EStart homeA [] [] :: zip1 ++ [EEnd homeA]) FEnd)) in
  let nested := run (de x0 E 30 0) (DState 3 (Stream (EStart homeA [] [] :: zip1 ++ EEnd homeA :: [EChars "t"]) (FErr "bad")) None) in
  fst alone = OOk (VRec [VStr "75001"]) /\ fst nested = OOk (VRec [VStr "75001"]) /\
  d_depth (snd alone) = 1 /\ d_depth (snd nested) = 4 /\
  from_events x0 E 30 0 (Stream homeEl FEnd) = OErr "bad namespace for home, found urn:b".
Proof. repeat split; vm_compute; reflexivity. Qed.
