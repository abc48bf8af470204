(** * C65: what the new program writes. *)
From Verif Require Import Str Num Xml XmlText Reader Schema De Ser SpecTree SpecText TextProofs SpecValue ValueProofs SpecStruct SpecEvolve SpecMove SpecTrim
  SpecEnc SpecRound SpecRoundFlat PropertiesStruct RoundReads RoundText RoundFlatProofs TrimProofs.
Open Scope list_scope.

Section Written.
  Variables (x : ext) (d : string -> value) (P : places) (E E' : env) (id : nat).
  Hypothesis Hg : grown P E E'.
  Hypothesis Hc : complete E.
  Hypothesis Hd : defaults_trimmed x (with_defaults x d) P E E'.
  Hypothesis Ho : no_flattened_option E.
  Hypothesis Hid : exists td, nth_error E id = Some td.

  Lemma trim_document : forall k c w v', white_indent c -> is_elem w -> Writable [] w -> Conforms (with_defaults x d) E' k id (reread [] w) ->
    Reads (with_defaults x d) E' id 0 (reread [] w) (OOk v') ->
    exists v, trimmed P E id v v' /\ exists N, forall fuel, N <= fuel -> from_str x E fuel id (emit_text (econf_of c) (wtree w)) = OOk v.
  Proof.
    intros k c w v' Hw He HW Hcf Hr. destruct (trim_reads x d P E E' k id 0 _ v' Hg Hc Hd Ho Hid Hcf Hr) as (_ & v & Hv & Ht).
    exists v. split; [exact Ht|]. apply (reads_text x E id _ (reread [] w)); [|exact Hv].
    apply text_round_trip; [apply white_econf; exact Hw|exact He|exact HW].
  Qed.

  Theorem trim_written : forall c v' s, supported E' -> rootable E' id -> Survives (with_defaults x d) E' false id v' -> white_indent c ->
    to_string_with_config (with_defaults x d) E' c id v' = SOk s ->
    exists v, trimmed P E id v v' /\ exists N, forall fuel, N <= fuel -> from_str x E fuel id s = OOk v.
  Proof.
    intros c v' s Hs Hr Hv Hw H. destruct (to_string_some _ _ _ _ _ _ H) as (l & Hl & ->).
    destruct (round_tree _ E' id v' l Hs Hr Hv Hl) as (w & -> & He & HW & Hcf & HR). eapply trim_document; eassumption.
  Qed.
  Theorem trim_written_flat : forall c v' s, all_ok E' -> root_ok E' id -> Lasts (with_defaults x d) E' false id v' -> white_indent c ->
    to_string_with_config (with_defaults x d) E' c id v' = SOk s ->
    exists v, trimmed P E id v v' /\ exists N, forall fuel, N <= fuel -> from_str x E fuel id s = OOk v.
  Proof.
    intros c v' s Hs Hr Hv Hw H. destruct (to_string_some _ _ _ _ _ _ H) as (l & Hl & ->).
    destruct (flat_round_tree _ E' id v' l Hs Hr Hv Hl) as (w & -> & He & HW & Hcf & HR). eapply trim_document; eassumption.
  Qed.
End Written.
