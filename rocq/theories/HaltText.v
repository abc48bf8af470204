(** * C17: termination by names, for texts. *)
From Verif Require Import Str Num Xml XmlText Reader Schema De SpecTree SpecStruct SpecTerm SpecComplete SpecHalt HaltProofs HaltCheck.
Open Scope list_scope.

Theorem C17_named_any : forall x E C id s, well_named E (markup (parse_text s)) C ->
  (forall n, root_named (parse_text s) n -> C id n) ->
  (forall i t, attr_text E (markup (parse_text s)) i t -> exists f, from_str x E f i (attr_document E i t) <> OFuel) ->
  (forall i n, C i n \/ ~ C i n) ->
  (forall i t, rest_text E (markup (parse_text s)) C i t -> exists f, from_str x E f i t <> OFuel) ->
  exists N, forall fuel, N <= fuel -> from_str x E fuel id s <> OFuel.
Proof.
  intros x E C id s H1 H2 H3 H4 H5. destruct (attr_texts_bound E _ x H3) as [F HF]. destruct (rest_texts_bound E _ x C H4 H5) as [G HG].
  exists (List.length (s_evs (parse_text s)) + (F + G) + 2). intros fuel Hf. apply (C17_named_text x E C (F + G)); auto.
  - intros i t f Ht Hle. apply HF; [exact Ht|lia].
  - intros i t f Ht Hle. apply HG; [exact Ht|lia].
Qed.
Theorem C17_named_bound : forall x E C id s fuel, well_named E (markup (parse_text s)) C ->
  (forall n, root_named (parse_text s) n -> C id n) ->
  (forall i t, ~ attr_text E (markup (parse_text s)) i t) ->
  (forall i t, ~ rest_text E (markup (parse_text s)) C i t) ->
  List.length (s_evs (parse_text s)) + 2 <= fuel -> from_str x E fuel id s <> OFuel.
Proof.
  intros x E C id s fuel H1 H2 H3 H4 H5. apply (C17_named_text x E C 0); auto; [| |lia].
  - intros i t f Ht. destruct (H3 i t Ht).
  - intros i t f Ht. destruct (H4 i t Ht).
Qed.
