(** * Text-level forms of the termination and typing lemmas. *)
From Verif Require Import Str Num Xml XmlText Reader Schema De Conform SpecTree SpecText SpecValue SpecStruct
  SpecTyped TypedProofs SpecSafe SpecTerm TermProofs TermReads.
Open Scope list_scope.

Lemma C17_refuted_lemma : ~ (forall x E id s, exists fuel, from_str x E fuel id s <> OFuel).
Proof. intros H. destruct (H x0 [book] 0 "<author>X</author>") as [fuel Hf]. apply Hf, C17_hang_lemma. Qed.

Lemma C17_calm_text : forall x E C id, calm E C -> C id ->
  forall s, exists N, forall fuel, N <= fuel -> from_str x E fuel id s <> OFuel.
Proof.
  intros x E C id Hc Hi s. exists (length (s_evs (parse_text s)) + 2). intros fuel Hf.
  apply (C17_calm_events x E C id (parse_text s) fuel Hc Hi (parse_parsed s) Hf).
Qed.

Lemma C17_root_text : forall x E C id td fs, calm E C -> struct_type E id td fs -> calm_root C fs ->
  forall s,
    (forall n f, root_named (parse_text s) n -> In f fs -> elem_field f -> (exists t, base_of (f_ty f) = BSimple t) ->
       flabel (t_attrs td) f <> elabel n \/ root_label td = elabel n) ->
  exists N, forall fuel, N <= fuel -> from_str x E fuel id s <> OFuel.
Proof.
  intros x E C id td fs Hc Hs Hr s Hn. exists (length (s_evs (parse_text s)) + 2). intros fuel Hf.
  exact (C17_root_events x E C id td fs (parse_text s) fuel Hc Hs Hr Hn (parse_parsed s) Hf).
Qed.

Lemma C20_text : forall x E, user_code_typed E x ->
  forall fuel id s v, from_str x E fuel id s = OOk v -> Typed E id v.
Proof. intros x E Hu fuel id s v H. exact (C20_lemma x E Hu fuel id _ v H). Qed.
