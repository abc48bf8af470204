(** * UTF-8: the validation, and which operations keep texts valid (C72). *)
From Verif Require Import Str Num Xml XmlText Reader Schema De Ser Checked SpecUtf8 SpecStruct WordProofs.
From Coq Require Import ZifyClasses ZifyN.
Open Scope list_scope.
Ltac Zify.zify_post_hook ::= Z.div_mod_to_equations.

Definition valid (s : string) : Prop := utf8_run [] s = Some [].

Lemma from_utf8_valid : forall s, from_utf8 s = true <-> valid s.
Proof. intros s. unfold from_utf8, valid. destruct (utf8_run [] s) as [[|]|]; split; intros H; try discriminate H; reflexivity. Qed.

Lemma run_app : forall a b st, utf8_run st (a +++ b) = match utf8_run st a with Some st' => utf8_run st' b | None => None end.
Proof.
  induction a as [|c a IH]; intros b st; [reflexivity|]. cbn [String.append utf8_run]. destruct (utf8_step st c); [apply IH|reflexivity].
Qed.
Lemma valid_app : forall a b, valid a -> valid b -> valid (a +++ b).
Proof. intros a b Ha Hb. unfold valid. rewrite run_app, Ha. exact Hb. Qed.
Lemma valid_rest : forall a b, valid a -> valid (a +++ b) -> valid b.
Proof. intros a b Ha H. unfold valid in H. rewrite run_app, Ha in H. exact H. Qed.

(** ** Bytes *)
Definition byte (c : ascii) : N := N_of_ascii c.
Lemma byte_bound : forall c, (byte c < 256)%N.
Proof. intros c. apply N_ascii_bounded. Qed.
Lemma ascii_byte : forall k, (k < 256)%N -> byte (ascii_of_N k) = k.
Proof. intros k H. apply N_ascii_embedding. exact H. Qed.
Lemma range_spec : forall c r, in_byte_range c r = true <-> (fst r <= byte c <= snd r)%N.
Proof. intros c r. unfold in_byte_range, byte. rewrite andb_true_iff, !N.leb_le. tauto. Qed.
Lemma step_low : forall c, (byte c < 128)%N -> utf8_step [] c = Some [].
Proof. intros c H. unfold utf8_step, after_first. replace (in_byte_range c (0, 127)%N) with true; [reflexivity|]. symmetry. apply range_spec. cbn [fst snd]. lia. Qed.
(** Every range is one of bytes that continue a character. *)
Definition proper (st : ranges) : Prop := forall r, In r st -> (128 <= fst r /\ snd r <= 191)%N.
Lemma proper_step : forall st c st', proper st -> utf8_step st c = Some st' -> proper st'.
Proof.
  intros [|r st] c st' Hp H; cbn [utf8_step] in H.
  - unfold after_first in H.
    repeat match type of H with (if ?b then _ else _) = _ => destruct b end; inversion H; subst; intros r' Hr; cbn [In more] in Hr;
      repeat destruct Hr as [<-|Hr]; try contradiction; unfold more; cbn [fst snd]; lia.
  - destruct (in_byte_range c r); inversion H; subst. intros r' Hr. apply Hp. right. exact Hr.
Qed.
Lemma proper_run : forall s st st', proper st -> utf8_run st s = Some st' -> proper st'.
Proof.
  induction s as [|c s IH]; intros st st' Hp H; cbn [utf8_run] in H; [inversion H; subst; exact Hp|].
  destruct (utf8_step st c) as [st1|] eqn:Hs; [|discriminate]. apply (IH st1); [apply (proper_step st c); assumption|exact H].
Qed.
Lemma proper_nil : proper [].
Proof. intros r []. Qed.
Definition continuation (c : ascii) : Prop := (128 <= byte c <= 191)%N.
Lemma step_cont : forall st c st', proper st -> utf8_step st c = Some st' -> st <> [] -> continuation c.
Proof.
  intros [|r st] c st' Hp H Hn; [congruence|]. cbn [utf8_step] in H. destruct (in_byte_range c r) eqn:Hr; [|discriminate].
  apply range_spec in Hr. specialize (Hp r (or_introl eq_refl)). unfold continuation. lia.
Qed.
Lemma step_first : forall c st', utf8_step [] c = Some st' -> ~ continuation c.
Proof.
  intros c st' H Hc. unfold continuation in Hc. unfold utf8_step, after_first in H.
  repeat match type of H with (if ?b then _ else _) = _ => destruct b eqn:?Hb end; try discriminate;
    repeat match goal with Hb : (_ || _)%bool = true |- _ => apply orb_true_iff in Hb; destruct Hb as [Hb|Hb] end;
    match goal with Hb : in_byte_range _ _ = true |- _ => apply range_spec in Hb; cbn [fst snd] in Hb end; lia.
Qed.
Lemma step_low_inv : forall st c st', proper st -> utf8_step st c = Some st' -> (byte c < 128)%N -> st = [] /\ st' = [].
Proof.
  intros st c st' Hp H Hc. destruct st as [|r st].
  - rewrite step_low in H by exact Hc. inversion H. auto.
  - exfalso. pose proof (step_cont (r :: st) c st' Hp H ltac:(discriminate)) as Hk. unfold continuation in Hk. lia.
Qed.

(** A text can be cut before a byte that does not continue a character. *)
Lemma valid_cut : forall a c b, ~ continuation c -> valid (a +++ String c b) -> valid a /\ valid (String c b).
Proof.
  intros a c b Hc H. unfold valid in H. rewrite run_app in H. destruct (utf8_run [] a) as [st|] eqn:Ha; [|discriminate].
  assert (st = []) as ->.
  { pose proof (proper_run a [] st proper_nil Ha) as Hp. destruct st as [|r st]; [reflexivity|]. exfalso. apply Hc.
    remember (r :: st) as st0 eqn:Hst. cbn [utf8_run] in H. destruct (utf8_step st0 c) as [st1|] eqn:Hs; [|discriminate].
    apply (step_cont st0 c st1 Hp Hs). subst. discriminate. }
  split; [exact Ha|exact H].
Qed.
Lemma low_first : forall c, (byte c < 128)%N -> ~ continuation c.
Proof. intros c H Hc. unfold continuation in Hc. lia. Qed.
Lemma valid_front : forall a b, valid b -> valid (a +++ b) -> valid a.
Proof.
  intros a [|c b] Hb H; [rewrite app_str_nil in H; exact H|]. apply (valid_cut a c b); [|exact H].
  unfold valid in Hb. cbn [utf8_run] in Hb. destruct (utf8_step [] c) as [st|] eqn:Hs; [|discriminate]. apply (step_first c st Hs).
Qed.
Lemma valid_low : forall c s, (byte c < 128)%N -> (valid (String c s) <-> valid s).
Proof. intros c s H. unfold valid. cbn [utf8_run]. rewrite step_low by exact H. tauto. Qed.

(** ** Validation accepts the Unicode texts *)
Lemma range_byte : forall k r, (k < 256)%N -> in_byte_range (ascii_of_N k) r = (N.leb (fst r) k && N.leb k (snd r))%bool.
Proof. intros k r H. unfold in_byte_range. rewrite N_ascii_embedding by exact H. reflexivity. Qed.
Ltac cmp := repeat match goal with
  | |- context [N.leb ?a ?b] => first [rewrite (proj2 (N.leb_le a b)) by lia | rewrite (proj2 (N.leb_gt a b)) by lia]
  end.
Lemma utf8_valid : forall n, scalar n -> valid (utf8 n).
Proof.
  intros n H. unfold scalar in H. unfold utf8, valid.
  destruct (N.ltb_spec n 128).
  { cbn [utf8_run]. rewrite step_low; [reflexivity|]. rewrite ascii_byte by lia. lia. }
  assert (Hr : forall k, (128 + (n / k) mod 64 < 256)%N).
  { intros k. pose proof (N.mod_lt (n / k) 64 ltac:(discriminate)). lia. }
  assert (Hm : forall k, in_byte_range (ascii_of_N (128 + (n / k) mod 64)) more = true).
  { intros k. rewrite range_byte by apply Hr. unfold more. cbn [fst snd]. pose proof (N.mod_lt (n / k) 64 ltac:(discriminate)).
    revert H1. generalize ((n / k) mod 64)%N. intros m Hlt. cmp. reflexivity. }
  destruct (N.ltb_spec n 2048).
  { assert (Hd : (2 <= n / 64 <= 31)%N) by lia.
    cbn [utf8_run utf8_step]. unfold after_first. rewrite !range_byte by lia. cbn [fst snd]. revert Hd. generalize (n / 64)%N. intros d Hd. cmp. cbn [andb].
    cbn [utf8_run utf8_step]. rewrite Hm. reflexivity. }
  destruct (N.ltb_spec n 65536).
  { assert (Hd : (n / 4096 <= 15)%N) by lia.
    assert (Hlo : (n / 4096 = 0 -> 32 <= (n / 64) mod 64)%N) by lia.
    assert (Hhi : (n / 4096 = 13 -> (n / 64) mod 64 < 32)%N) by lia.
    assert (Hmb : ((n / 64) mod 64 < 64)%N) by (apply N.mod_lt; discriminate). specialize (Hr 64%N). pose proof (Hm 64%N) as Hm64. cbn [utf8_run utf8_step]. unfold after_first. rewrite !range_byte by lia. cbn [fst snd].
    revert Hd Hlo Hhi Hmb Hr Hm64. generalize (n / 4096)%N ((n / 64) mod 64)%N. intros d m Hd Hlo Hhi Hmb Hr Hm64.
    cmp. cbn [andb].
    assert (Hc : (d = 0 \/ d = 13 \/ (1 <= d <= 12) \/ 14 <= d <= 15)%N) by lia.
    destruct Hc as [->|[->|[Hc|Hc]]]; cmp; cbn [andb orb utf8_run utf8_step];
      rewrite ?Hm64, ?range_byte by exact Hr; cbn [fst snd]; cmp; cbn [andb utf8_step]; rewrite ?Hm; reflexivity. }
  assert (Hd : (n / 262144 <= 4)%N) by lia.
  assert (Hlo : (n / 262144 = 0 -> 16 <= (n / 4096) mod 64)%N) by lia.
  assert (Hhi : (n / 262144 = 4 -> (n / 4096) mod 64 < 16)%N) by lia.
  assert (Hmb : ((n / 4096) mod 64 < 64)%N) by (apply N.mod_lt; discriminate). specialize (Hr 4096%N). pose proof (Hm 4096%N) as Hm64. cbn [utf8_run utf8_step]. unfold after_first. rewrite !range_byte by lia. cbn [fst snd].
  revert Hd Hlo Hhi Hmb Hr Hm64. generalize (n / 262144)%N ((n / 4096) mod 64)%N. intros d m Hd Hlo Hhi Hmb Hr Hm64.
  cmp. cbn [andb].
  assert (Hc : (d = 0 \/ d = 4 \/ (1 <= d <= 3))%N) by lia.
  destruct Hc as [->|[->|Hc]]; cmp; cbn [andb orb utf8_run utf8_step];
    rewrite ?Hm64, ?range_byte by exact Hr; cbn [fst snd]; cmp; cbn [andb utf8_step]; rewrite ?Hm; cbn [utf8_step]; rewrite ?Hm; reflexivity.
Qed.
Lemma unicode_valid : forall s, Unicode s -> valid s.
Proof. induction 1; [reflexivity|]. apply valid_app; [apply utf8_valid; assumption|assumption]. Qed.

Lemma byte_ascii : forall c, ascii_of_N (byte c) = c.
Proof. intros c. apply ascii_N_embedding. Qed.
Ltac onec Hone H c1 s1 := let Hx := fresh "Hr" in
  apply Hone in H; [|auto]; match type of H with match ?s with _ => _ end => destruct s as [|c1 s1]; [discriminate H|destruct H as [Hx H]] end; cbn [fst snd] in Hx.
Ltac fin k Hnext Hvalid_of r p :=
  let Hs := fresh in let He := fresh in
  assert (Hs : scalar k) by (unfold scalar; lia);
  assert (He : p = utf8 k);
  [|apply (Hnext p r); [discriminate|apply (Hvalid_of k); assumption|reflexivity|exists k; split; assumption]].
Lemma valid_unicode_n : forall n s, String.length s <= n -> valid s -> Unicode s.
Proof.
  induction n as [|n IH]; intros s Hl H; [destruct s; [constructor|cbn in Hl; lia]|].
  destruct s as [|c s]; [constructor|].
  assert (Hnext : forall p r, p <> "" -> valid p -> String c s = p +++ r -> (exists k, scalar k /\ p = utf8 k) -> Unicode (String c s)).
  { intros p r Hp Hv Heq (k & Hk & Hpk). rewrite Heq in *. rewrite Hpk at 1. constructor; [exact Hk|]. apply IH; [|apply (valid_rest p); assumption].
    destruct p as [|c0 p]; [congruence|]. cbn [String.append String.length] in Hl.
    assert (Hlen : forall a b, String.length b <= String.length (a +++ b)) by (induction a; intros; cbn; [lia|specialize (IHa b); lia]).
    specialize (Hlen p r). lia. }
  pose proof (byte_bound c) as Hb. unfold valid in H. cbn [utf8_run utf8_step] in H. unfold after_first in H.
  pose proof (byte_ascii c) as Hc.
  assert (Hone : forall r st' st s', utf8_run (r :: st) s' = Some st' -> s' <> "" \/ True -> match s' with
     | "" => st' = r :: st | String c1 s1 => (fst r <= byte c1 <= snd r)%N /\ utf8_run st s1 = Some st' end).
  { intros r st' st [|c1 s1] Hr _; cbn [utf8_run utf8_step] in Hr; [congruence|]. destruct (in_byte_range c1 r) eqn:Hi; [|discriminate].
    apply range_spec in Hi. auto. }
  assert (Hvalid_of : forall k p, scalar k -> p = utf8 k -> valid p) by (intros k p Hk ->; apply utf8_valid; exact Hk).
  destruct (in_byte_range c (0, 127)%N) eqn:H0.
  { apply range_spec in H0. cbn [fst snd] in H0. fin (byte c) Hnext Hvalid_of s (String c "").
    unfold utf8. destruct (N.ltb_spec (byte c) 128); [|lia]. rewrite Hc. reflexivity. }
  destruct (in_byte_range c (194, 223)%N) eqn:H1.
  { apply range_spec in H1. cbn [fst snd] in H1. unfold more in H. onec Hone H c1 s1.
    fin ((byte c - 192) * 64 + (byte c1 - 128))%N Hnext Hvalid_of s1 (String c (String c1 "")).
    unfold utf8. remember ((byte c - 192) * 64 + (byte c1 - 128))%N as k eqn:Hk.
    destruct (N.ltb_spec k 128); [lia|]. destruct (N.ltb_spec k 2048); [|lia].
    replace (192 + k / 64)%N with (byte c) by lia. replace (128 + (k / 1) mod 64)%N with (byte c1) by lia. rewrite !byte_ascii. reflexivity. }
  assert (H3 : forall lo hi, (128 <= lo /\ hi <= 191)%N -> utf8_run [(lo, hi); more] s = Some [] ->
    (224 <= byte c <= 239)%N -> (byte c = 224 -> 160 <= lo)%N -> (byte c = 237 -> hi <= 159)%N -> Unicode (String c s)).
  { intros lo hi Hlh Hrun Hrange Hlow Hhigh. unfold more in Hrun. onec Hone Hrun c1 s1. onec Hone Hrun c2 s2.
    fin ((byte c - 224) * 4096 + (byte c1 - 128) * 64 + (byte c2 - 128))%N Hnext Hvalid_of s2 (String c (String c1 (String c2 ""))).
    unfold utf8. remember ((byte c - 224) * 4096 + (byte c1 - 128) * 64 + (byte c2 - 128))%N as k eqn:Hk.
    destruct (N.ltb_spec k 128); [lia|]. destruct (N.ltb_spec k 2048); [lia|]. destruct (N.ltb_spec k 65536); [|lia].
    replace (224 + k / 4096)%N with (byte c) by lia. replace (128 + (k / 64) mod 64)%N with (byte c1) by lia.
    replace (128 + (k / 1) mod 64)%N with (byte c2) by lia. rewrite !byte_ascii. reflexivity. }
  assert (H4 : forall lo hi, (128 <= lo /\ hi <= 191)%N -> utf8_run [(lo, hi); more; more] s = Some [] ->
    (240 <= byte c <= 244)%N -> (byte c = 240 -> 144 <= lo)%N -> (byte c = 244 -> hi <= 143)%N -> Unicode (String c s)).
  { intros lo hi Hlh Hrun Hrange Hlow Hhigh. unfold more in Hrun. onec Hone Hrun c1 s1. onec Hone Hrun c2 s2. onec Hone Hrun c3 s3.
    fin ((byte c - 240) * 262144 + (byte c1 - 128) * 4096 + (byte c2 - 128) * 64 + (byte c3 - 128))%N Hnext Hvalid_of s3 (String c (String c1 (String c2 (String c3 "")))).
    unfold utf8. remember ((byte c - 240) * 262144 + (byte c1 - 128) * 4096 + (byte c2 - 128) * 64 + (byte c3 - 128))%N as k eqn:Hk.
    destruct (N.ltb_spec k 128); [lia|]. destruct (N.ltb_spec k 2048); [lia|]. destruct (N.ltb_spec k 65536); [lia|].
    replace (240 + k / 262144)%N with (byte c) by lia. replace (128 + (k / 4096) mod 64)%N with (byte c1) by lia. replace (128 + (k / 64) mod 64)%N with (byte c2) by lia.
    replace (128 + (k / 1) mod 64)%N with (byte c3) by lia. rewrite !byte_ascii. reflexivity. }
  repeat match type of H with
  | (match (if ?b then _ else _) with _ => _ end) = _ => let Hb := fresh "Hb" in destruct b eqn:Hb
  end; try discriminate;
  repeat match goal with Hb : (_ || _)%bool = true |- _ => apply orb_true_iff in Hb; destruct Hb as [Hb|Hb] end;
  repeat match goal with Hb : in_byte_range _ _ = true |- _ => apply range_spec in Hb; cbn [fst snd] in Hb end;
  unfold more in H; first [eapply H3; [|exact H|..]; lia | eapply H4; [|exact H|..]; lia].
Qed.
Lemma valid_unicode : forall s, valid s <-> Unicode s.
Proof. intros s. split; [apply (valid_unicode_n (String.length s)); lia|apply unicode_valid]. Qed.
Lemma from_utf8_unicode : forall s, from_utf8 s = true <-> Unicode s.
Proof. intros s. rewrite from_utf8_valid. apply valid_unicode. Qed.
