(** * Text forms of simple types: C07-C09.  Vocabulary: SpecNum.v. *)
From Verif Require Import Str Num Schema SpecNum NumProofs.

(** C07. *)
Theorem C07_integer_round_trip :
  forall t z, fits t z -> parse_int t (show_Z z) = Ok z.
Proof. exact C07_lemma. Qed.
Print Assumptions C07_integer_round_trip.

(** The same for the text written by a field and the visitor reading it. *)
Theorem C07_integer_field_round_trip :
  forall x t z, fits t z ->
  exists s, show_simple x (SInt t) (VInt z) = Some s /\ visit_simple x (SInt t) s = Ok (VInt z).
Proof.
  exact (fun x t z H => ex_intro _ (show_Z z)
    (conj eq_refl (f_equal (rmap VInt) (C07_lemma t z H)))).
Qed.
Print Assumptions C07_integer_field_round_trip.

Example C07_case : fits I8 (-128) /\ show_Z (-128) = "-128" /\ fits U64 18446744073709551615.
Proof. repeat split; vm_compute; congruence. Qed.

(** C08.  Acceptance, value and range together; everything else is an error
    because [parse_int] is total. *)
Theorem C08_integer_acceptance :
  forall t s z, parse_int t s = Ok z <-> numeral t s z /\ fits t z.
Proof. exact C08_lemma. Qed.
Print Assumptions C08_integer_acceptance.

Theorem C08_integer_rejection :
  forall t s, (exists m, parse_int t s = Er m) <-> ~ exists z, numeral t s z /\ fits t z.
Proof.
  intros t s. destruct (parse_int t s) as [z|m] eqn:H; split.
  - intros [m Hm]; discriminate.
  - intros Hn; exfalso; apply Hn; exists z; apply C08_lemma; assumption.
  - intros _ [z Hz]. apply C08_lemma in Hz. congruence.
  - eauto.
Qed.
Print Assumptions C08_integer_rejection.

(** The visitor of an integer field is exactly this parser. *)
Theorem C08_integer_field :
  forall x t s v, visit_simple x (SInt t) s = Ok v <->
  exists z, v = VInt z /\ numeral t s z /\ fits t z.
Proof.
  intros x t s v. unfold visit_simple, parse_simple. split.
  - intros H. destruct (parse_int t s) as [z|m] eqn:Hp; [|discriminate].
    inversion H; subst. exists z. split; [reflexivity|]. apply C08_lemma; assumption.
  - intros (z & -> & Hz). apply C08_lemma in Hz. rewrite Hz. reflexivity.
Qed.
Print Assumptions C08_integer_field.

Example C08_case :
  parse_int U8 "+0255" = Ok 255%Z /\ parse_int U8 "256" = Er err_pos /\
  parse_int I8 "-128" = Ok (-128)%Z /\ parse_int U8 "-1" = Er err_digit /\
  parse_int I32 "" = Er err_empty /\ parse_int I32 " 1" = Er err_digit.
Proof. repeat split; reflexivity. Qed.

(** C09. *)
Theorem C09_bool_lexical :
  forall x s v, visit_simple x SBool s = Ok v <->
  (v = VBool true /\ (s = "true" \/ s = "1")) \/ (v = VBool false /\ (s = "false" \/ s = "0")).
Proof.
  intros x s v. unfold visit_simple, parse_simple. split.
  - intros H. destruct (parse_bool (map_if_bool s)) as [b|m] eqn:Hp; [|discriminate].
    inversion H; subst. apply C09_lemma in Hp. destruct Hp as [[-> H1]|[-> H1]]; auto.
  - intros [[-> H1]|[-> H1]].
    + replace (parse_bool (map_if_bool s)) with (Ok true); [reflexivity|].
      symmetry; apply C09_lemma; auto.
    + replace (parse_bool (map_if_bool s)) with (Ok false); [reflexivity|].
      symmetry; apply C09_lemma; auto.
Qed.
Print Assumptions C09_bool_lexical.

Theorem C09_bool_written :
  forall x b, show_simple x SBool (VBool b) = Some (if b then "true" else "false").
Proof. reflexivity. Qed.
Print Assumptions C09_bool_written.

Example C09_case : (forall x, visit_simple x SBool "1" = Ok (VBool true)) /\
  (forall x, exists m, visit_simple x SBool "TRUE" = Er m).
Proof. split; intros; [reflexivity|eexists; reflexivity]. Qed.
