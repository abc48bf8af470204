(** * C74: writers that take a limited number of bytes.

    Vocabulary: SpecFull.v. *)
From Verif Require Import Str Num Xml XmlText Schema Ser Conform SpecSer SpecFull FullProofs.
Open Scope list_scope.

(** ** In full
    Serializing to a writer that takes [n] bytes succeeds exactly if the text
    has no more. *)
Definition C74_full : Prop :=
  forall x E c id v t l n, to_string_with_config x E c id v = SOk t -> ser_events x E id v = SOk l ->
    (fst (ser x E id v (full_at c n l) w_init) = SOk tt <-> String.length t <= n).

(** A flattened enum with a variant [A { v: Vec<i32> }]: the numbers are written
    without reporting failures, and nothing is written after them. *)
Definition bareT : typedef := enum_ "N" (a_flatten ya0) [Variant "A" ya0 (VbNamed [fld "v" (TVec (BSimple (SInt I32)))])] (VVar 0 [VVec []]).
Definition plain74 : config := Config false false None.
Theorem C74_refuted : ~ C74_full.
Proof.
  intros H. assert (Hx : String.length "5" <= 0); [|cbn in Hx; inversion Hx].
  apply (H x0 [bareT] plain74 0 (VVar 0 [VVec [VInt 5]]) "5" [WChars "5"] 0); vm_compute; reflexivity.
Qed.
Print Assumptions C74_refuted.

(** ** Types with an element of their own, and types whose serializers report
    every write error
    Missing for the full claim: flattened types that have variants with numbers
    in them.  For types with an element nothing else is asked of any type:
    failures that are not reported at once are reported at the end tag. *)
Theorem C74_element_partial :
  forall x E c id td v t l n, nth_error E id = Some td -> own_element td ->
    to_string_with_config x E c id v = SOk t -> ser_events x E id v = SOk l ->
    (fst (ser x E id v (full_at c n l) w_init) = SOk tt <-> String.length t <= n).
Proof. exact full_own. Qed.
Print Assumptions C74_element_partial.
Theorem C74_reports_partial :
  forall x E c id v t l n, reports_errors E -> to_string_with_config x E c id v = SOk t -> ser_events x E id v = SOk l ->
    (fst (ser x E id v (full_at c n l) w_init) = SOk tt <-> String.length t <= n).
Proof. exact full_reports. Qed.
Print Assumptions C74_reports_partial.

(** ** What arrives
    For all types: if the text fits, all of it; otherwise exactly the events
    that fit completely (and the beginning of the next one). *)
Theorem C74_enough :
  forall x E c id v t l n, to_string_with_config x E c id v = SOk t -> ser_events x E id v = SOk l -> String.length t <= n ->
    exists w, ser x E id v (full_at c n l) w_init = (SOk tt, w) /\ w_evs w = l.
Proof. exact full_enough. Qed.
Print Assumptions C74_enough.
Theorem C74_arrives :
  forall x E c id v t l n r w, to_string_with_config x E c id v = SOk t -> ser_events x E id v = SOk l ->
    ser x E id v (full_at c n l) w_init = (r, w) ->
    exists rest, l = w_evs w ++ rest /\ String.length (emit_text (econf_of c) (w_evs w)) <= n /\
      match rest with [] => True | e :: _ => n < String.length (emit_text (econf_of c) (w_evs w ++ [e])) end.
Proof. exact full_bytes. Qed.
Print Assumptions C74_arrives.

(** Room for 10 bytes: the number in the list is dropped silently, the end tag
    after it reports the failure. *)
Definition N74 : env := [enum_ "N" ya0 [vnew "A" (TVec (BSimple (SInt I32)))] (VVar 0 [VVec []])].
Definition v74 : value := VVar 0 [VVec [VInt 123456; VInt 7]].
Definition l74 : list wevent :=
  [start_plain "N"; start_plain "A"; WChars "123456"; WEnd None; start_plain "A"; WChars "7"; WEnd None; WEnd None].
Example C74_case :
  to_string_with_config x0 N74 plain74 0 v74 = SOk "<N><A>123456</A><A>7</A></N>" /\
  ser_events x0 N74 0 v74 = SOk l74 /\
  map (fun n => fst (ser x0 N74 0 v74 (full_at plain74 n l74) w_init)) [0; 10; 27; 28; 29] =
    [SErr "io error"; SErr "io error"; SErr "io error"; SOk tt; SOk tt] /\
  w_evs (snd (ser x0 N74 0 v74 (full_at plain74 10 l74) w_init)) = [start_plain "N"; start_plain "A"] /\
  (exists td, nth_error N74 0 = Some td /\ own_element td).
Proof.
  split; [vm_compute; reflexivity|]. split; [vm_compute; reflexivity|]. split; [vm_compute; reflexivity|]. split; [vm_compute; reflexivity|].
  eexists. split; reflexivity.
Qed.
