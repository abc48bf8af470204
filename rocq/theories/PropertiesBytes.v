(** * C73: input that is any bytes.

    Vocabulary: SpecBytes.v, SpecUtf8.v; [from_failing] is the reader of C52
    that delivers some bytes and then fails. *)
From Verif Require Import Str Num Xml XmlText Reader Schema De Ser Conform Checked SpecUtf8 SpecCut Utf8Proofs Bytes SpecBytes BytesProofs PropertiesCut PropertiesUtf8.
Open Scope list_scope.

(** xml-rs takes the longest beginning of the input that is Unicode, and sees
    the end of the input exactly if all of it is. *)
Theorem C73_chars : forall s, longest_unicode s (fst (read_chars s)) /\ (snd (read_chars s) = true <-> Unicode s).
Proof. exact read_chars_longest. Qed.
Print Assumptions C73_chars.

(** A Unicode text is read from a reader as it is from a string. *)
Theorem C73_unicode : forall x E fuel id s msg, Unicode s -> from_bytes x E fuel id s msg = from_str x E fuel id s.
Proof. exact bytes_whole. Qed.
Print Assumptions C73_unicode.

(** All other input is read as its longest beginning that is Unicode, with a
    failure after it: no other byte has any influence. *)
Theorem C73_broken : forall x E fuel id s msg p, ~ Unicode s -> longest_unicode s p -> from_bytes x E fuel id s msg = from_failing x E fuel id p msg.
Proof. exact bytes_broken. Qed.
Print Assumptions C73_broken.

(** Whatever the bytes are, all strings of the value are Unicode and the check
    on the collected text of flattened fields does not fail. *)
Theorem C73_read : forall x E, unicode_types E -> unicode_code x -> forall fuel id s msg,
  from_bytes_checked x E fuel id s msg = from_bytes x E fuel id s msg /\ forall v, from_bytes x E fuel id s msg = OOk v -> unicode_value v.
Proof. exact bytes_read. Qed.
Print Assumptions C73_read.

(** If structs and enums are read all the same, every other continuation of the
    Unicode beginning gives the same value. *)
Theorem C73_continue : forall x E fuel id td s msg p r v, nth_error E id = Some td -> compound td -> ~ Unicode s -> longest_unicode s p ->
  from_bytes x E fuel id s msg = OOk v -> from_str x E fuel id (p +++ r) = OOk v.
Proof. exact bytes_continue. Qed.
Print Assumptions C73_continue.

(** The bytes of "€" with the last one missing, inside of a text, and after the
    document, which is not read that far. *)
Definition cut73 : string := fold_right String "" (map ascii_of_N [226; 130])%N.
Definition S73 (t : string) : string := ("<página lang=""ñ€""><título>" +++ t +++ "</título><price>5 €</price></página>")%string.
Example C73_case :
  read_chars (S73 cut73) = ("<página lang=""ñ€""><título>", false) /\ ~ Unicode (S73 cut73) /\
  from_bytes_checked x0 E72 60 0 (S73 cut73) "invalid UTF-8" = OErr "invalid UTF-8" /\
  from_bytes_checked x0 E72 60 0 (S73 "été") "invalid UTF-8" = OOk (VRec [VStr "ñ€"; VRec [VStr "été"]; VStr "5 €"]) /\
  from_bytes x0 E72 60 0 (S73 "été" +++ cut73) "invalid UTF-8" = OOk (VRec [VStr "ñ€"; VRec [VStr "été"]; VStr "5 €"]) /\
  ~ Unicode (S73 "été" +++ cut73) /\ longest_unicode (S73 "été" +++ cut73) (S73 "été") /\ compound (struct_ "Page" ya0 []).
Proof.
  assert (Hn : forall s, from_utf8 s = false -> ~ Unicode s).
  { intros s H Hu. apply from_utf8_unicode in Hu. rewrite Hu in H. discriminate H. }
  split; [vm_compute; reflexivity|]. split; [apply Hn; vm_compute; reflexivity|].
  split; [vm_compute; reflexivity|]. split; [vm_compute; reflexivity|]. split; [vm_compute; reflexivity|]. split; [apply Hn; vm_compute; reflexivity|].
  split; [|exact I]. replace (S73 "été") with (fst (read_chars (S73 "été" +++ cut73))) at 2 by (vm_compute; reflexivity). apply read_chars_longest.
Qed.
