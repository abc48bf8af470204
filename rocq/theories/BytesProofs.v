(** * Input that is any bytes: proofs (C73). *)
From Verif Require Import Str Num Xml XmlText Reader Schema De Ser Checked SpecUtf8 SpecCut Utf8Proofs Utf8Text Utf8De Bytes SpecBytes CutProofs.
Open Scope list_scope.

Lemma app_s_assoc : forall a b c, ((a +++ b) +++ c = a +++ (b +++ c))%string.
Proof. induction a as [|d a IH]; intros b c; [reflexivity|]. cbn [String.append]. rewrite IH. reflexivity. Qed.
Lemma app_s_nil : forall a, (a +++ "" = a)%string.
Proof. induction a as [|d a IH]; [reflexivity|]. cbn [String.append]. rewrite IH. reflexivity. Qed.

Lemma next_char_chars : forall n s buf ch r, next_char n buf s = CChar ch r -> buf +++ s = ch +++ r /\ valid ch /\ String.length r < String.length s.
Proof.
  induction n as [|n IH]; intros [|c s] buf ch r H; cbn [next_char] in H; try (destruct buf; discriminate H).
  - destruct (from_utf8 (buf +++ String c "")) eqn:Hu; [|discriminate H]. inversion H; subst. rewrite app_s_assoc. cbn [String.append String.length].
    split; [reflexivity|]. split; [apply from_utf8_valid; exact Hu|lia].
  - destruct (from_utf8 (buf +++ String c "")) eqn:Hu.
    + inversion H; subst. rewrite app_s_assoc. cbn [String.append String.length]. split; [reflexivity|]. split; [apply from_utf8_valid; exact Hu|lia].
    + destruct (IH _ _ _ _ H) as (H1 & H2 & H3). rewrite app_s_assoc in H1. cbn [String.append String.length] in *. split; [exact H1|]. split; [exact H2|lia].
Qed.
Lemma next_char_end : forall n s buf, next_char n buf s = CEnd -> s = "" /\ buf = "".
Proof.
  induction n as [|n IH]; intros [|c s] buf H; cbn [next_char] in H; try (destruct buf; [split; reflexivity|discriminate H]).
  - destruct (from_utf8 _); discriminate H.
  - destruct (from_utf8 _); [discriminate H|]. destruct (IH _ _ H) as [_ Hb]. destruct buf; discriminate Hb.
Qed.
Lemma next_char_more : forall n buf st q r, utf8_run [] buf = Some st -> st <> [] -> List.length st <= S n -> utf8_run st q = Some [] ->
  exists ch r', next_char n buf (q +++ r) = CChar ch r'.
Proof.
  induction n as [|n IH]; intros buf st q r Hb Hst Hl Hq; (destruct q as [|c q]; [inversion Hq; contradiction|]);
    cbn [utf8_run] in Hq; destruct (utf8_step st c) as [st1|] eqn:Hs; try discriminate Hq;
    assert (Hb1 : utf8_run [] (buf +++ String c "") = Some st1) by (rewrite run_app, Hb; cbn [utf8_run]; rewrite Hs; reflexivity);
    destruct st as [|r0 st]; try contradiction; cbn [utf8_step] in Hs; destruct (in_byte_range c r0); inversion Hs; subst;
    cbn [String.append next_char]; unfold from_utf8; rewrite Hb1; cbn [List.length] in Hl; destruct st1 as [|r1 st1]; eauto.
  - cbn [List.length] in Hl. lia.
  - apply (IH _ (r1 :: st1)); [exact Hb1|discriminate|lia|exact Hq].
Qed.
Lemma first_short : forall c st, after_first c = Some st -> List.length st <= 3.
Proof.
  intros c st H. unfold after_first in H.
  repeat match type of H with (if ?b then _ else _) = _ => destruct b end; inversion H; subst; cbn [List.length]; lia.
Qed.
Lemma next_char_some : forall q r, valid q -> q <> "" -> exists ch r', next_char 3 "" (q +++ r) = CChar ch r'.
Proof.
  intros [|c q] r Hq Hn; [contradiction|]. unfold valid in Hq. cbn [utf8_run] in Hq. destruct (utf8_step [] c) as [st|] eqn:Hs; [|discriminate Hq].
  assert (Hb : utf8_run [] (String c "") = Some st) by (cbn [utf8_run]; rewrite Hs; reflexivity).
  change (exists ch r', (if from_utf8 (String c "") then CChar (String c "") (q +++ r) else next_char 2 (String c "") (q +++ r)) = CChar ch r').
  unfold from_utf8. rewrite Hb. destruct st as [|r0 st]; [eauto|].
  apply (next_char_more 2 _ (r0 :: st)); [exact Hb|discriminate| |exact Hq]. apply first_short in Hs. exact Hs.
Qed.

Lemma chars_spec : forall f s p ok, String.length s < f -> chars f s = (p, ok) ->
  exists r, s = p +++ r /\ valid p /\ (ok = true -> r = "") /\ (ok = false -> r <> "" /\ forall q t, r = q +++ t -> valid q -> q = "").
Proof.
  induction f as [|f IH]; intros s p ok Hf H; [lia|]. cbn [chars] in H. destruct (next_char 3 "" s) as [ch r| |] eqn:Hn.
  - destruct (chars f r) as [p1 ok1] eqn:Hc. inversion H; subst. destruct (next_char_chars _ _ _ _ _ Hn) as (H1 & H2 & H3). cbn [String.append] in H1.
    destruct (IH r p1 ok) as (r1 & -> & H4 & H5 & H6); [lia|exact Hc|]. exists r1. split; [rewrite H1, app_s_assoc; reflexivity|].
    split; [apply valid_app; assumption|]. split; assumption.
  - inversion H; subst. apply next_char_end in Hn. destruct Hn as [-> _]. exists "". split; [reflexivity|]. split; [reflexivity|]. split; [reflexivity|discriminate].
  - inversion H; subst. exists s. split; [reflexivity|]. split; [reflexivity|]. split; [discriminate|]. intros _. split; [intros ->; discriminate Hn|].
    intros q t -> Hq. destruct q as [|c q]; [reflexivity|]. destruct (next_char_some (String c q) t Hq) as (ch & r & Hx); [discriminate|]. rewrite Hx in Hn. discriminate Hn.
Qed.

(** Two prefixes of the same text. *)
Lemma prefixes : forall a b c d, (a +++ b = c +++ d)%string -> (exists e, a = (c +++ e)%string) \/ (exists e, c = (a +++ e)%string).
Proof.
  induction a as [|x a IH]; intros b c d H; [right; exists c; reflexivity|]. destruct c as [|y c]; [left; exists (String x a); reflexivity|].
  cbn [String.append] in H. inversion H; subst. destruct (IH _ _ _ H2) as [[e ->]|[e ->]]; [left|right]; exists e; reflexivity.
Qed.
Lemma app_cancel : forall a b c, (a +++ b = a +++ c)%string -> b = c.
Proof. induction a as [|x a IH]; intros b c H; [exact H|]. cbn [String.append] in H. inversion H. apply IH. assumption. Qed.

Lemma read_chars_whole : forall s, Unicode s -> read_chars s = (s, true).
Proof.
  intros s Hs. unfold read_chars. destruct (chars (S (String.length s)) s) as [p ok] eqn:Hc. destruct (chars_spec _ s p ok (Nat.lt_succ_diag_r _) Hc) as (r & H1 & H2 & H3 & H4).
  destruct ok; [rewrite (H3 eq_refl), app_s_nil in H1; subst; reflexivity|]. destruct (H4 eq_refl) as [H5 H6]. exfalso. apply H5.
  apply (H6 r ""); [rewrite app_s_nil; reflexivity|]. apply (valid_rest p); [exact H2|]. rewrite <- H1. apply valid_unicode. exact Hs.
Qed.
Lemma read_chars_longest : forall s, longest_unicode s (fst (read_chars s)) /\ (snd (read_chars s) = true <-> Unicode s).
Proof.
  intros s. unfold read_chars. destruct (chars (S (String.length s)) s) as [p ok] eqn:Hc. destruct (chars_spec _ s p ok (Nat.lt_succ_diag_r _) Hc) as (r & H1 & H2 & H3 & H4).
  cbn [fst snd]. split.
  - split; [apply valid_unicode; exact H2|]. split; [exists r; exact H1|]. intros q (t & Hq) Hu. destruct ok; [rewrite (H3 eq_refl), app_s_nil in H1; exists t; rewrite <- H1; exact Hq|].
    destruct (H4 eq_refl) as [_ H5]. pose proof Hq as Hq'. rewrite H1 in Hq'. destruct (prefixes p r q t Hq') as [[e He]|[e He]]; [exists e; exact He|].
    exists "". rewrite app_s_nil. rewrite He in Hq'. rewrite app_s_assoc in Hq'. apply app_cancel in Hq'. rewrite (H5 e t Hq'), app_s_nil in He; [symmetry; exact He|].
    apply (valid_rest p); [exact H2|]. rewrite <- He. apply valid_unicode. exact Hu.
  - split.
    + intros ->. rewrite (H3 eq_refl), app_s_nil in H1. rewrite H1. apply valid_unicode. exact H2.
    + intros Hs. pose proof (read_chars_whole s Hs) as H. unfold read_chars in H. rewrite Hc in H. inversion H. reflexivity.
Qed.
Lemma length_s : forall a b, String.length (a +++ b) = String.length a + String.length b.
Proof. induction a as [|c a IH]; intros b; [reflexivity|]. cbn [String.append String.length]. rewrite IH. reflexivity. Qed.
Lemma longest_one : forall s p q, longest_unicode s p -> longest_unicode s q -> p = q.
Proof.
  intros s p q (H1 & H2 & H3) (H4 & H5 & H6). destruct (H3 q H5 H4) as [e He]. destruct (H6 p H2 H1) as [g Hg].
  pose proof (f_equal String.length He) as L1. pose proof (f_equal String.length Hg) as L2. rewrite length_s in L1, L2.
  destruct e as [|c e]; [rewrite app_s_nil in He; exact He|]. cbn [String.length] in L1. lia.
Qed.

Lemma bytes_whole : forall x E fuel id s msg, Unicode s -> from_bytes x E fuel id s msg = from_str x E fuel id s.
Proof. intros x E fuel id s msg Hs. unfold from_bytes, parse_bytes. rewrite (read_chars_whole s Hs). reflexivity. Qed.
Lemma bytes_broken : forall x E fuel id s msg p, ~ Unicode s -> longest_unicode s p -> from_bytes x E fuel id s msg = from_failing x E fuel id p msg.
Proof.
  intros x E fuel id s msg p Hs Hp. unfold from_bytes, parse_bytes. destruct (read_chars_longest s) as [H1 H2]. destruct (read_chars s) as [q ok]. cbn [fst snd] in *.
  rewrite (longest_one s p q Hp H1). destruct ok; [destruct (Hs (proj1 H2 eq_refl))|reflexivity].
Qed.

Lemma prun_valid : forall t, valid t -> uni [] (prun p0 t).
Proof.
  assert (H : forall t s st s', proper s -> uni s st -> utf8_run s t = Some s' -> uni s' (prun st t)).
  { induction t as [|c t IH]; intros s st s' Hp H Hr; [inversion Hr; subst; exact H|]. cbn [prun utf8_run] in *.
    destruct (utf8_step s c) as [s1|] eqn:Hs; [|discriminate]. apply (IH s1); [apply (proper_step s c); assumption| |exact Hr]. apply (uni_step s s1); assumption. }
  intros t Ht. apply (H t [] p0 [] proper_nil); [|exact Ht].
  unfold uni. cbn [p0 p_out p_names p_nss p_mode p_raw p_buf]. split; [intros e' [<-|[]]; exact I|]. do 2 (split; [intros ? []|]). repeat split.
Qed.
Lemma bytes_state : forall s msg, vstate (d_init (parse_bytes s msg)).
Proof.
  intros s msg. unfold parse_bytes. destruct (read_chars_longest s) as [(H & _) _]. destruct (read_chars s) as [p ok]. cbn [fst] in H. apply valid_unicode in H.
  destruct ok; [apply init_state; exact H|]. split; [|exact I]. intros e He. exact (proj1 (prun_valid p H) e He).
Qed.
Lemma bytes_read : forall x E, unicode_types E -> unicode_code x -> forall fuel id s msg,
  from_bytes_checked x E fuel id s msg = from_bytes x E fuel id s msg /\ forall v, from_bytes x E fuel id s msg = OOk v -> unicode_value v.
Proof.
  intros x E HE (_ & _ & Hd) fuel id s msg.
  assert (Ha : agree vvalue (de_checked x E fuel id) (de x E fuel id)).
  { apply de_valid; [intros d; apply value_unicode, Hd|]. intros td t Ht Hin. apply valid_unicode. exact (HE td t Ht Hin). }
  destruct (agree_run _ _ _ _ Ha _ (bytes_state s msg)) as [H1 H2]. split.
  - unfold from_bytes_checked, from_bytes, from_events. rewrite H1. reflexivity.
  - intros v Hv. apply value_unicode. apply H2. exact Hv.
Qed.

(** What was read in front of the broken bytes does not depend on them. *)
Lemma bytes_continue : forall x E fuel id td s msg p r v, nth_error E id = Some td -> compound td -> ~ Unicode s -> longest_unicode s p ->
  from_bytes x E fuel id s msg = OOk v -> from_str x E fuel id (p +++ r) = OOk v.
Proof.
  intros x E fuel id td s msg p r v Htd Hc Hs Hp H. rewrite (bytes_broken _ _ _ _ _ _ p Hs Hp) in H. exact (cut_reader x E fuel id td p msg r v Htd Hc H).
Qed.
