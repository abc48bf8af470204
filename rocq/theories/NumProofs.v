(** * Proofs of C07-C09. *)
From Verif Require Import Str Num SpecNum.
From Coq Require Import NArith.

Lemma in_range_fits : forall t z, in_range t z = true <-> fits t z.
Proof.
  intros t z. unfold in_range, fits. rewrite andb_true_iff, !Z.leb_le.
  destruct t; unfold imin, imax; simpl; lia.
Qed.

Lemma str_app_nil : forall s, s +++ "" = s.
Proof. induction s; simpl; congruence. Qed.
Lemma str_app_assoc : forall a b c : string, (a +++ b) +++ c = a +++ (b +++ c).
Proof. induction a; intros; simpl; congruence. Qed.

Lemma digit_of_digit : forall d, d < 10 -> digit_of (ascii_of_nat (48 + d)) = Some (Z.of_nat d).
Proof. intros d H. do 10 (destruct d as [|d]; [reflexivity|]). lia. Qed.

Lemma digit_of_inv : forall c z, digit_of c = Some z ->
  exists d, d < 10 /\ c = ascii_of_nat (48 + d) /\ z = Z.of_nat d.
Proof.
  intros c z H. exists (nat_of_ascii c - 48). revert H.
  destruct c as [[] [] [] [] [] [] [] []]; vm_compute; intros H; inversion H; subst;
  repeat split; lia.
Qed.

(** Unchecked value of a digit string. *)
Fixpoint dval (acc : Z) (s : string) : option Z :=
  match s with
  | EmptyString => Some acc
  | String c r => match digit_of c with None => None | Some d => dval (acc * 10 + d)%Z r end
  end.

Lemma dval_digit : forall d acc, d < 10 -> dval acc (digit d) = Some (acc * 10 + Z.of_nat d)%Z.
Proof. intros d acc H. unfold digit. cbn [dval]. rewrite (digit_of_digit d H). reflexivity. Qed.

Lemma dval_app : forall s1 s2 acc, dval acc (s1 +++ s2) =
  match dval acc s1 with Some a => dval a s2 | None => None end.
Proof.
  induction s1 as [|c s1 IH]; intros s2 acc; simpl; [reflexivity|].
  destruct (digit_of c); [apply IH|reflexivity].
Qed.

Lemma decimal_dval : forall s z, decimal s z -> dval 0 s = Some z /\ s <> "".
Proof.
  intros s z H; induction H.
  - split; [|discriminate]. rewrite (dval_digit d 0 H). f_equal; lia.
  - destruct IHdecimal as [H1 H2]. split.
    + rewrite dval_app, H1, (dval_digit d z H0). f_equal; lia.
    + destruct s; [congruence|discriminate].
Qed.

Lemma dval_decimal_aux : forall s p a, decimal p a -> forall z, dval a s = Some z -> decimal (p +++ s) z.
Proof.
  induction s as [|c s IH]; intros p a Hp z H; simpl in H.
  - inversion H; subst. rewrite str_app_nil. assumption.
  - destruct (digit_of c) as [dd|] eqn:Hd; [|discriminate].
    destruct (digit_of_inv _ _ Hd) as (d & Hlt & -> & ->).
    replace (p +++ String (ascii_of_nat (48 + d)) s) with ((p +++ digit d) +++ s)
      by (rewrite str_app_assoc; reflexivity).
    apply (IH _ (10 * a + Z.of_nat d)%Z).
    + constructor; assumption.
    + rewrite <- H. f_equal. lia.
Qed.

Lemma dval_decimal : forall s z, s <> "" -> dval 0 s = Some z -> decimal s z.
Proof.
  intros [|c s] z Hne H; [congruence|]. simpl in H.
  destruct (digit_of c) as [dd|] eqn:Hd; [|discriminate].
  destruct (digit_of_inv _ _ Hd) as (d & Hlt & -> & ->).
  change (String (ascii_of_nat (48 + d)) s) with (digit d +++ s).
  apply (dval_decimal_aux s (digit d) (Z.of_nat d)); [constructor; assumption|].
  rewrite <- H. f_equal.
Qed.

Lemma dval_mono : forall s a z, (0 <= a)%Z -> dval a s = Some z -> (a <= z)%Z.
Proof.
  induction s as [|c s IH]; intros a z Ha H; simpl in H.
  - inversion H; lia.
  - destruct (digit_of c) as [dd|] eqn:Hd; [|discriminate].
    destruct (digit_of_inv _ _ Hd) as (d & Hlt & -> & ->).
    apply IH in H; lia.
Qed.

Lemma fits_zero : forall t, fits t 0.
Proof. destruct t; simpl; lia. Qed.

Lemma fits_between : forall t a z, fits t z -> (0 <= a <= z \/ z <= a <= 0)%Z -> fits t a.
Proof. intros t a z H H1; destruct t; simpl in *; lia. Qed.

Definition sgn (neg : bool) (z : Z) : Z := if neg then (- z)%Z else z.

Lemma parse_digits_spec : forall t neg s a z, (0 <= a)%Z ->
  fits t (sgn neg a) ->
  (parse_digits t neg (sgn neg a) s = Ok z <-> exists m, dval a s = Some m /\ z = sgn neg m /\ fits t z).
Proof.
  intros t neg; induction s as [|c s IH]; intros a z Ha Hf; simpl.
  - split.
    + intros H; inversion H; subst. exists a; auto.
    + intros (m & H1 & H2 & H3). inversion H1; subst. reflexivity.
  - destruct (digit_of c) as [dd|] eqn:Hd.
    2:{ split; [discriminate|]. intros (m & H1 & _); discriminate. }
    destruct (digit_of_inv _ _ Hd) as (d & Hlt & -> & ->).
    replace (if neg then (sgn neg a * 10 - Z.of_nat d)%Z else (sgn neg a * 10 + Z.of_nat d)%Z)
      with (sgn neg (a * 10 + Z.of_nat d)) by (destruct neg; simpl; lia).
    destruct (in_range t (sgn neg (a * 10 + Z.of_nat d))) eqn:Hr.
    + apply IH; [lia|]. apply in_range_fits; assumption.
    + split; [discriminate|]. intros (m & H1 & H2 & H3). exfalso.
      assert (Hm : (a * 10 + Z.of_nat d <= m)%Z) by (apply (dval_mono s); [lia|assumption]).
      assert (fits t (sgn neg (a * 10 + Z.of_nat d))) as Hf2.
      { apply (fits_between t _ z H3). subst z. destruct neg; simpl; lia. }
      apply in_range_fits in Hf2. congruence.
Qed.

Lemma parse_digits_false : forall t s z,
  parse_digits t false 0 s = Ok z <-> dval 0 s = Some z /\ fits t z.
Proof.
  intros t s z. change 0%Z with (sgn false 0) at 1.
  rewrite (parse_digits_spec t false s 0 z); [|lia|apply fits_zero].
  simpl. split; [intros (m & H1 & -> & H2); auto|intros [H1 H2]; eauto].
Qed.
Lemma parse_digits_true : forall t s z,
  parse_digits t true 0 s = Ok z <-> dval 0 s = Some (- z)%Z /\ fits t z.
Proof.
  intros t s z. change 0%Z with (sgn true 0) at 1.
  rewrite (parse_digits_spec t true s 0 z); [|lia|apply fits_zero].
  simpl. split.
  - intros (m & H1 & -> & H2). rewrite Z.opp_involutive. auto.
  - intros [H1 H2]. exists (- z)%Z. rewrite Z.opp_involutive. auto.
Qed.

Lemma decimal_first : forall s z, decimal s z ->
  exists d r, s = String (ascii_of_nat (48 + d)) r /\ d < 10.
Proof.
  intros s z H; induction H.
  - exists d, ""; auto.
  - destruct IHdecimal as (d' & r & -> & Hd). exists d', (r +++ digit d). auto.
Qed.

Lemma digit_not_sign : forall d, d < 10 ->
  Ascii.eqb (ascii_of_nat (48 + d)) "+" = false /\ Ascii.eqb (ascii_of_nat (48 + d)) "-" = false.
Proof. intros d H. do 10 (destruct d as [|d]; [split; reflexivity|]). lia. Qed.

Lemma decimal_no_sign : forall c r z, decimal (String c r) z ->
  Ascii.eqb c "+" = false /\ Ascii.eqb c "-" = false.
Proof.
  intros c r z H. destruct (decimal_first _ _ H) as (d & r' & Heq & Hd).
  inversion Heq; subst. apply digit_not_sign; assumption.
Qed.

Lemma is_empty_spec : forall s, is_empty s = true <-> s = "".
Proof. intros [|? ?]; simpl; split; congruence. Qed.

Lemma C08_lemma : forall t s z, parse_int t s = Ok z <-> numeral t s z /\ fits t z.
Proof.
  intros t s z. unfold numeral. split.
  - intros H. destruct s as [|c r]; [discriminate|]. simpl in H.
    destruct (Ascii.eqb c "+") eqn:Hp.
    + apply Ascii.eqb_eq in Hp; subst c.
      destruct (is_empty r) eqn:He; [discriminate|].
      apply parse_digits_false in H. destruct H as [H1 H2]. split; [|assumption].
      right; left. exists r. split; [reflexivity|].
      apply dval_decimal; [intros ->; discriminate|assumption].
    + destruct (Ascii.eqb c "-") eqn:Hm.
      * apply Ascii.eqb_eq in Hm; subst c.
        destruct (is_empty r) eqn:He; [discriminate|].
        destruct (isigned t) eqn:Hs; [|discriminate].
        apply parse_digits_true in H. destruct H as [H1 H2]. split; [|assumption].
        right; right. exists r, (- z)%Z. repeat split.
        -- apply dval_decimal; [intros ->; discriminate|assumption].
        -- lia.
        -- destruct t; simpl in Hs; try discriminate; tauto.
      * change (parse_digits t false 0 (String c r) = Ok z) in H.
        apply parse_digits_false in H. destruct H as [H1 H2]. split; [|assumption].
        left. apply dval_decimal; [discriminate|assumption].
  - intros [[H|[(r & -> & H)|(r & m & -> & H & -> & Ht)]] Hf].
    + destruct (decimal_dval _ _ H) as [H1 H2].
      destruct s as [|c r]; [congruence|].
      destruct (decimal_no_sign _ _ _ H) as [Hp Hm]. unfold parse_int. rewrite Hp, Hm.
      apply parse_digits_false; auto.
    + destruct (decimal_dval _ _ H) as [H1 H2]. simpl.
      destruct (is_empty r) eqn:He; [apply is_empty_spec in He; congruence|].
      apply parse_digits_false; auto.
    + destruct (decimal_dval _ _ H) as [H1 H2]. simpl.
      destruct (is_empty r) eqn:He; [apply is_empty_spec in He; congruence|].
      replace (isigned t) with true by (destruct Ht as [->|[->|[->| ->]]]; reflexivity).
      apply parse_digits_true. rewrite Z.opp_involutive. auto.
Qed.

(** ** Display *)
Lemma show_digits_app : forall fuel n acc, show_digits fuel n acc = show_digits fuel n "" +++ acc.
Proof.
  induction fuel as [|f IH]; intros n acc; simpl; [reflexivity|].
  destruct (N.eqb (n / 10) 0); [reflexivity|].
  rewrite (IH _ (String _ acc)), (IH _ (String _ "")), str_app_assoc. reflexivity.
Qed.

Lemma digit_char_digit : forall d, (d < 10)%N -> String (digit_char d) "" = digit (N.to_nat d).
Proof.
  intros d H. unfold digit_char, digit, ascii_of_nat. do 2 f_equal. lia.
Qed.

Lemma show_digits_decimal : forall fuel n, (n < 2 ^ N.of_nat fuel)%N -> fuel <> 0 ->
  decimal (show_digits fuel n "") (Z.of_N n).
Proof.
  induction fuel as [|f IH]; intros n Hn Hf; [congruence|]. simpl show_digits.
  assert (Hm : (n mod 10 < 10)%N) by (apply N.mod_lt; lia).
  destruct (N.eqb (n / 10) 0) eqn:Hz.
  - apply N.eqb_eq in Hz. rewrite (digit_char_digit _ Hm).
    replace (Z.of_N n) with (Z.of_nat (N.to_nat (n mod 10))).
    + constructor. lia.
    + rewrite N_nat_Z. f_equal. pose proof (N.div_mod n 10 ltac:(lia)). lia.
  - apply N.eqb_neq in Hz. rewrite show_digits_app, (digit_char_digit _ Hm).
    replace (Z.of_N n) with (10 * Z.of_N (n / 10) + Z.of_nat (N.to_nat (n mod 10)))%Z.
    + constructor; [|lia]. apply IH.
      * apply N.div_lt_upper_bound; [lia|].
        rewrite Nat2N.inj_succ, N.pow_succ_r' in Hn. lia.
      * intros ->. simpl in Hn. change (2 ^ 1)%N with 2%N in Hn.
        apply Hz. apply N.div_small. lia.
    + rewrite N_nat_Z. pose proof (N.div_mod n 10 ltac:(lia)). lia.
Qed.

Lemma size_nat_bound : forall n, (n < 2 ^ N.of_nat (S (N.size_nat n)))%N.
Proof.
  intros n. rewrite Nat2N.inj_succ, N.pow_succ_r'.
  assert (H : (n < 2 ^ N.of_nat (N.size_nat n))%N).
  { destruct n as [|p]; [reflexivity|]. simpl N.size_nat.
    induction p; simpl Pos.size_nat; rewrite Nat2N.inj_succ, N.pow_succ_r' ; try reflexivity; lia. }
  lia.
Qed.

Lemma show_N_decimal : forall n, decimal (show_N n) (Z.of_N n).
Proof. intros n. apply show_digits_decimal; [apply size_nat_bound|discriminate]. Qed.

Lemma show_Z_numeral : forall t z, fits t z -> numeral t (show_Z z) z.
Proof.
  intros t z H. unfold numeral. destruct z as [|p|p].
  - left. apply (dec_one 0). lia.
  - left. apply (show_N_decimal (Npos p)).
  - right; right. exists (show_N (Npos p)), (Z.pos p). repeat split.
    + apply (show_N_decimal (Npos p)).
    + destruct t; simpl in H; try tauto; lia.
Qed.

Lemma C07_lemma : forall t z, fits t z -> parse_int t (show_Z z) = Ok z.
Proof. intros t z H. apply C08_lemma. split; [apply show_Z_numeral|]; assumption. Qed.

Lemma C09_lemma : forall s b, parse_bool (map_if_bool s) = Ok b <->
  (b = true /\ (s = "true" \/ s = "1")) \/ (b = false /\ (s = "false" \/ s = "0")).
Proof.
  intros s b. unfold map_if_bool.
  destruct (String.eqb s "1") eqn:H1; [apply String.eqb_eq in H1; subst; cbn|
  destruct (String.eqb s "0") eqn:H0; [apply String.eqb_eq in H0; subst; cbn|]].
  - split; [intros H; inversion H; auto|]. intros [[-> _]|[_ [H|H]]]; [reflexivity|discriminate..].
  - split; [intros H; inversion H; auto|]. intros [[_ [H|H]]|[-> _]]; [discriminate..|reflexivity].
  - unfold parse_bool. apply String.eqb_neq in H1, H0.
    destruct (String.eqb s "true") eqn:Ht; [apply String.eqb_eq in Ht; subst|
    destruct (String.eqb s "false") eqn:Hf; [apply String.eqb_eq in Hf; subst|]].
    + split; [intros H; inversion H; auto|]. intros [[-> _]|[_ [H|H]]]; [reflexivity|discriminate..].
    + split; [intros H; inversion H; auto|]. intros [[_ [H|H]]|[-> _]]; [discriminate..|reflexivity].
    + apply String.eqb_neq in Ht, Hf. split; [discriminate|]. intros [[_ [H|H]]|[_ [H|H]]]; congruence.
Qed.

Lemma show_Z_chars : forall z, show_Z z <> "" .
Proof.
  intros [|p|p]; simpl; try discriminate.
  destruct (decimal_dval _ _ (show_N_decimal (Npos p))); assumption.
Qed.
