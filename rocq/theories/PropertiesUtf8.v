(** * C72: Unicode in, Unicode out; the UTF-8 checks never fail. *)
From Verif Require Import Str Num Xml XmlText Reader Schema De Ser Conform Checked SpecUtf8 Utf8Proofs Utf8Text Utf8De Utf8Ser.
Open Scope list_scope.

(** std's check accepts exactly the UTF-8 forms of Unicode texts. *)
Theorem C72_check : forall s, from_utf8 s = true <-> Unicode s.
Proof. exact from_utf8_unicode. Qed.
Print Assumptions C72_check.
Example C72_check_accepts : map from_utf8 ["caf" +++ utf8 233; utf8 8364; utf8 55295; utf8 57344; utf8 128512; utf8 1114111] = [true; true; true; true; true; true].
Proof. vm_compute. reflexivity. Qed.
(** A lone continuation byte, an overlong form, a surrogate, a code point that
    is too large, a character cut short. *)
Example C72_check_rejects : map (fun l => from_utf8 (fold_right String "" (map ascii_of_N l)))
  [[128]; [192; 128]; [224; 159; 191]; [237; 160; 128]; [244; 144; 128; 128]; [240; 143; 191; 191]; [226; 130]]%N = repeat false 7.
Proof. vm_compute. reflexivity. Qed.

(** Reading a Unicode text: with the check on the collected text of flattened
    fields the outcome is the same, and all strings of the value are Unicode. *)
Theorem C72_read : forall x E, unicode_types E -> unicode_code x -> forall fuel id s, Unicode s ->
  from_str_checked x E fuel id s = from_str x E fuel id s /\ forall v, from_str x E fuel id s = OOk v -> unicode_value v.
Proof. exact unicode_read. Qed.
Print Assumptions C72_read.

(** Writing a Unicode value: the text is Unicode, so the check gives it back
    and does not panic. *)
Theorem C72_write : forall x E, unicode_types E -> unicode_code x -> forall c id v, unicode_config c -> unicode_value v ->
  (forall s, expect_utf8 (to_string_with_config x E c id v) = OOk s <-> to_string_with_config x E c id v = SOk s) /\
  (forall m, expect_utf8 (to_string_with_config x E c id v) <> OPanic m) /\
  forall s, to_string_with_config x E c id v = SOk s -> Unicode s.
Proof. exact unicode_write. Qed.
Print Assumptions C72_write.

(** The same for the content alone, as written into attributes of user type. *)
Theorem C72_content : forall x E, unicode_types E -> unicode_code x -> forall id v, unicode_value v ->
  (forall s, expect_utf8 (to_string_content (ser x E) id v) = OOk s <-> to_string_content (ser x E) id v = SOk s) /\
  (forall m, expect_utf8 (to_string_content (ser x E) id v) <> OPanic m) /\
  forall s, to_string_content (ser x E) id v = SOk s -> Unicode s.
Proof. exact unicode_write_content. Qed.
Print Assumptions C72_content.

(** Characters of two, three and four bytes in names, texts, attributes and in
    a flattened field, which is read again from the collected text. *)
Definition E72 : env :=
  [struct_ "Page" (a_rename "página" ya0) [fldA "lang" (a_attr ya0) tstr; fldA "rest" (a_flatten ya0) (tuser 1); fld "price" tstr];
   struct_ "Rest" ya0 [fldA "note" (a_rename "título" ya0) tstr]].
Definition V72 : value := VRec [VStr "ñ€"; VRec [VStr "été 😀 <"]; VStr "5 €"].
Definition T72 : string := "<página lang=""ñ€""><título>été 😀 &lt;</título><price>5 €</price></página>".
Lemma unicode_all : forall l, forallb from_utf8 l = true -> forall s, In s l -> Unicode s.
Proof. intros l H s Hs. apply from_utf8_unicode. exact (proj1 (forallb_forall _ _) H s Hs). Qed.
Example C72_types : unicode_types E72.
Proof. intros td s [<-|[<-|[]]]; apply unicode_all; vm_compute; reflexivity. Qed.
Example C72_code : unicode_code x0.
Proof.
  split; [intros d z; apply (unicode_all ["0"]); [reflexivity|left; reflexivity]|]. split.
  - intros n z. apply valid_unicode, low_valid, show_Z_low.
  - intros d. cbn [x_default x0]. destruct (String.eqb d "default_string"); [exact (unicode_all ["my_default_value"] eq_refl)|].
    destruct (String.eqb d "default_number"); [exact (unicode_all [] eq_refl)|exact (unicode_all [""] eq_refl)].
Qed.
Example C72_value : unicode_value V72.
Proof. unfold unicode_value. apply unicode_all. vm_compute. reflexivity. Qed.
Example C72_case : Unicode T72 /\ from_str_checked x0 E72 60 0 T72 = OOk V72 /\ expect_utf8 (to_string_with_config x0 E72 config0 0 V72) = OOk (decl +++ T72).
Proof. split; [apply from_utf8_unicode; vm_compute; reflexivity|]. split; vm_compute; reflexivity. Qed.
(** The hypotheses are needed: bytes that are not Unicode make the checks
    panic. *)
Example C72_panics : let b := String (ascii_of_N 200) "" in
  expect_utf8 (to_string_with_config x0 E72 config0 0 (VRec [VStr b; VRec [VStr "a"]; VStr "b"])) = OPanic "Found invalid UTF-8" /\
  from_str_checked x0 E72 60 0 ("<página lang=""a""><título>" +++ b +++ "</título><price>5</price></página>") =
    OPanic "called `Result::unwrap()` on an `Err` value: FromUtf8Error".
Proof. split; vm_compute; reflexivity. Qed.
