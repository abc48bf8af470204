(** * What the parser delivers: texts are clean, attribute values legal. *)
From Verif Require Import Str Num Xml XmlText Reader Schema SpecTree SpecText SpecRound TextProofs.
Open Scope list_scope.

Definition clean_event (e : event) : Prop :=
  match e with
  | EChars t => clean t
  | EStart _ a _ => forall t, In t a -> legal (at_value t) = true
  | _ => True
  end.

(** ** Strings *)
Lemma slegal_app : forall a b, legal (a +++ b) = (legal a && legal b)%bool.
Proof. intros. apply all_chars_app. Qed.
Lemma legal_one : forall c, illegal_char c = false -> legal (String c "") = true.
Proof. intros c H. unfold legal. cbn [all_chars]. rewrite H. reflexivity. Qed.

Lemma legal_byte : forall k, (32 <= k < 256)%N -> illegal_char (ascii_of_N k) = false.
Proof.
  intros k H. unfold illegal_char, nat_of_ascii. rewrite N_ascii_embedding by lia.
  replace (Nat.ltb (N.to_nat k) 32) with false; [reflexivity|]. symmetry. apply Nat.ltb_ge. lia.
Qed.

Lemma utf8_legal : forall n, xml_char n = true -> legal (utf8 n) = true.
Proof.
  intros n H.
  assert (Hn : (n = 9 \/ n = 10 \/ n = 13 \/ 32 <= n < 1114112)%N).
  { unfold xml_char in H. rewrite !orb_true_iff, !andb_true_iff, !N.leb_le, !N.ltb_lt, !N.eqb_eq in H. lia. }
  clear H. destruct Hn as [->|[->|[->|Hn]]]; [reflexivity..|].
  assert (Hr : forall k r, legal r = true -> legal (String (ascii_of_N (128 + (n / k) mod 64)) r) = true).
  { intros k r Hr. unfold legal. cbn [all_chars]. rewrite legal_byte; [exact Hr|].
    generalize (n / k)%N. intros j. assert (j mod 64 < 64)%N by (apply N.mod_lt; discriminate). revert H. generalize (j mod 64)%N. intros; lia. }
  assert (Hd : forall a b r, legal r = true -> (32 <= a)%N -> (a + n / b < 256)%N ->
     legal (String (ascii_of_N (a + n / b)) r) = true).
  { intros a b r Hl H1 H2. unfold legal. cbn [all_chars]. revert H2. generalize (n / b)%N. intros j H2. rewrite legal_byte; [exact Hl|]. lia. }
  unfold utf8. destruct (N.ltb_spec n 128).
  { unfold legal. cbn [all_chars]. rewrite legal_byte by lia. reflexivity. }
  destruct (N.ltb_spec n 2048).
  { apply Hd; [apply Hr; reflexivity|lia|]. assert (n / 64 < 32)%N by (apply N.div_lt_upper_bound; lia). lia. }
  destruct (N.ltb_spec n 65536).
  { apply Hd; [do 2 apply Hr; reflexivity|lia|]. assert (n / 4096 < 16)%N by (apply N.div_lt_upper_bound; lia). lia. }
  apply Hd; [do 3 apply Hr; reflexivity|lia|]. assert (n / 262144 < 5)%N by (apply N.div_lt_upper_bound; lia). lia.
Qed.

Lemma entity_legal : forall e t, entity e = Some t -> legal t = true.
Proof.
  intros e t H. unfold entity in H.
  repeat match type of H with (if ?b then _ else _) = _ => destruct b; [inversion H; subst; reflexivity|] end.
  match type of H with match ?o with Some _ => _ | None => _ end = _ => destruct o as [n|]; [|discriminate] end.
  destruct (xml_char n) eqn:Hb; [|discriminate]. inversion H; subst. apply utf8_legal. exact Hb.
Qed.

Lemma unesc_legal : forall s o t, legal s = true -> unesc_aux o s = Some t -> legal t = true.
Proof.
  induction s as [|c s IH]; intros o t Hs H; cbn [unesc_aux] in H.
  - destruct o; inversion H; reflexivity.
  - unfold legal in Hs. cbn [all_chars] in Hs. apply andb_true_iff in Hs. destruct Hs as [Hc Hs]. apply negb_true_iff in Hc.
    destruct o as [e|].
    + destruct (Ascii.eqb c ";"); [|eapply IH; eassumption].
      destruct (entity e) as [u|] eqn:He; [|discriminate]. destruct (unesc_aux None s) as [t'|] eqn:Hu; [|discriminate].
      inversion H; subst. rewrite slegal_app, (entity_legal _ _ He). apply (IH None); assumption.
    + destruct (Ascii.eqb c "&"); [eapply IH; eassumption|].
      destruct (unesc_aux None s) as [t'|] eqn:Hu; [|discriminate]. inversion H; subst.
      unfold legal. cbn [all_chars]. rewrite Hc. cbn [negb andb]. apply (IH None t'); assumption.
Qed.

Lemma norm_legal : forall s, legal s = true -> legal (attr_norm s) = true.
Proof.
  induction s as [|c s IH]; [reflexivity|]. unfold legal. cbn [attr_norm all_chars]. rewrite !andb_true_iff. intros [Hc Hs].
  split; [|apply IH; exact Hs]. destruct (is_ws c); [reflexivity|exact Hc].
Qed.

Lemma all_substring : forall p s n m, all_chars p s = true -> all_chars p (substring n m s) = true.
Proof.
  intros p; induction s as [|c s IH]; intros n m H; [destruct n, m; reflexivity|].
  cbn [all_chars] in H. apply andb_true_iff in H. destruct H as [Hc Hs]. destruct n, m; cbn [substring all_chars]; auto.
  rewrite Hc. apply IH. exact Hs.
Qed.

(** [trim] gives clean texts. *)
Lemma all_trim_start : forall p s, all_chars p s = true -> all_chars p (trim_start s) = true.
Proof.
  intros p; induction s as [|c s IH]; [reflexivity|]. intros H. cbn [trim_start]. destruct (is_ws c); [|exact H].
  cbn [all_chars] in H. apply andb_true_iff in H. apply IH. apply H.
Qed.
Lemma all_trim_end : forall p s, all_chars p s = true -> all_chars p (trim_end s) = true.
Proof.
  intros p; induction s as [|c s IH]; [reflexivity|]. intros H. cbn [all_chars] in H. apply andb_true_iff in H. destruct H as [Hc Hs].
  specialize (IH Hs). cbn [trim_end]. destruct (trim_end s) as [|c' s'].
  - destruct (is_ws c); [reflexivity|]. cbn [all_chars]. rewrite Hc. reflexivity.
  - cbn [all_chars] in *. rewrite Hc. exact IH.
Qed.
Lemma trim_start_idem : forall s, trim_start (trim_start s) = trim_start s.
Proof. induction s as [|c s IH]; [reflexivity|]. cbn [trim_start]. destruct (is_ws c) eqn:H; [exact IH|]. cbn [trim_start]. rewrite H. reflexivity. Qed.
Lemma trim_end_idem : forall s, trim_end (trim_end s) = trim_end s.
Proof.
  induction s as [|c s IH]; [reflexivity|]. cbn [trim_end]. destruct (trim_end s) as [|c' s'] eqn:He.
  - destruct (is_ws c) eqn:H; [reflexivity|]. cbn [trim_end]. rewrite H. reflexivity.
  - remember (String c' s') as r eqn:Hr. cbn [trim_end]. rewrite IH. subst r. reflexivity.
Qed.
Lemma trim_start_first : forall s, trim_start s = s -> trim_start (trim_end s) = trim_end s.
Proof.
  intros [|c s] H; [reflexivity|]. cbn [trim_start trim_end] in *. destruct (is_ws c) eqn:Hw.
  - exfalso. assert (forall u, String.length (trim_start u) <= String.length u) as K.
    { induction u as [|d u IH]; [apply Nat.le_refl|]. cbn [trim_start]. destruct (is_ws d); cbn [String.length]; lia. }
    specialize (K s). rewrite H in K. cbn [String.length] in K. lia.
  - destruct (trim_end s); cbn [trim_start]; rewrite Hw; reflexivity.
Qed.
Lemma trim_idem : forall s, trim (trim s) = trim s.
Proof.
  intros s. unfold trim. rewrite (trim_start_first (trim_start s)) by apply trim_start_idem. apply trim_end_idem.
Qed.
Lemma nonws_start : forall s, str_nonws (trim_start s) = str_nonws s.
Proof.
  unfold str_nonws. induction s as [|c s IH]; [reflexivity|]. cbn [trim_start all_chars]. destruct (is_ws c) eqn:H; [exact IH|].
  cbn [all_chars]. rewrite H. reflexivity.
Qed.
Lemma nonws_end : forall s, str_nonws (trim_end s) = str_nonws s.
Proof.
  unfold str_nonws. induction s as [|c s IH]; [reflexivity|]. cbn [trim_end all_chars]. destruct (trim_end s) as [|c' s'] eqn:He.
  - cbn [all_chars negb] in IH. symmetry in IH. apply negb_false_iff in IH. rewrite IH.
    destruct (is_ws c) eqn:H; cbn [all_chars]; [|rewrite H]; reflexivity.
  - cbn [all_chars] in *. rewrite negb_andb, IH, <- negb_andb. reflexivity.
Qed.
Lemma trim_clean : forall s, legal s = true -> str_nonws s = true -> clean (trim s).
Proof.
  intros s Hl Hn. split; [|split].
  - unfold trim. apply all_trim_end, all_trim_start. exact Hl.
  - unfold trim. rewrite nonws_end, nonws_start. exact Hn.
  - apply trim_idem.
Qed.

(** ** The parser *)
Definition legal_values (ats : list (string * string)) : Prop := forall a, In a ats -> legal (snd a) = true.
Definition legal_mode (m : pmode) : Prop :=
  match m with
  | MAttrs _ ats | MAttrName _ ats _ | MAttrEq _ ats _ | MAttrQuote _ ats _ | MAfterVal _ ats | MEmptyClose _ ats => legal_values ats
  | MAttrVal _ ats _ _ acc => legal_values ats /\ legal acc = true
  | MCData acc => legal acc = true
  | _ => True
  end.
Definition tidy (st : pst) : Prop :=
  (forall e, In e (p_out st) -> clean_event e) /\ legal (p_raw st) = true /\ legal (p_buf st) = true /\
  p_nonws st = str_nonws (p_buf st) /\ legal_mode (p_mode st).

Lemma tidy_mode : forall st m, tidy st -> legal_mode m -> tidy (set_mode st m).
Proof. intros st m (H1 & H2 & H3 & H4 & _) Hm. repeat split; assumption. Qed.
Lemma tidy_fail : forall st m, tidy st -> tidy (pfail st m).
Proof. intros st m H. apply tidy_mode; [exact H|exact I]. Qed.
Lemma tidy_end_raw : forall st m, tidy st -> legal_mode m -> tidy (end_raw st m).
Proof.
  intros st m H Hm. unfold end_raw. destruct (unesc (p_raw st)) as [t|] eqn:Hu; [|apply tidy_fail; exact H].
  destruct H as (H1 & H2 & H3 & H4 & _). repeat split; cbn [p_out p_raw p_buf p_nonws p_mode]; auto.
  - rewrite slegal_app, H3. apply (unesc_legal _ _ _ H2 Hu).
  - rewrite nonws_app, H4. reflexivity.
Qed.
Lemma tidy_flush : forall st m, tidy st -> legal_mode m -> tidy (flush st m).
Proof.
  intros st m H Hm. unfold flush. destruct H as (H1 & H2 & H3 & H4 & H5). destruct (p_nonws st) eqn:Hn.
  - destruct (p_stack st) eqn:Hs; [apply tidy_fail; repeat split; auto; congruence|].
    repeat split; cbn [p_out p_raw p_buf p_nonws p_mode]; auto.
    intros e He. apply in_app_or in He. destruct He as [He|[<-|[]]]; [auto|].
    apply trim_clean; [exact H3|symmetry; exact H4].
  - repeat split; cbn [p_out p_raw p_buf p_nonws p_mode]; auto.
Qed.
Lemma resolve_values : forall nss ats al, resolve_attrs nss ats = Some al -> legal_values ats ->
  forall t, In t al -> legal (at_value t) = true.
Proof.
  intros nss; induction ats as [|a ats IH]; intros al H Hl t Ht; cbn [resolve_attrs] in H.
  - inversion H; subst. destruct Ht.
  - assert (Hr : legal_values ats) by (intros b Hb; apply Hl; right; exact Hb).
    destruct (ns_decl a); [eapply IH; eassumption|]. destruct (resolve_attr_name nss (fst a)); [|discriminate].
    destruct (resolve_attrs nss ats) as [al'|] eqn:Ha; [|discriminate]. inversion H; subst.
    destruct Ht as [<-|Ht]; [apply (Hl a (or_introl eq_refl))|]. apply (IH al'); auto.
Qed.
Lemma tidy_start : forall st q ats b, tidy st -> legal_values ats -> tidy (start_tag st q ats b).
Proof.
  intros st q ats b H Hl. unfold start_tag. destruct (bad_tag q ats); [apply tidy_fail; exact H|].
  destruct (resolve_elem _ q); [|apply tidy_fail; exact H]. destruct (resolve_attrs _ ats) as [al|] eqn:Ha; [|apply tidy_fail; exact H].
  destruct H as (H1 & H2 & H3 & H4 & H5).
  destruct b; repeat split; cbn [p_out p_raw p_buf p_nonws p_mode]; auto; intros e He; apply in_app_or in He;
    destruct He as [He|[<-|He]]; auto; try contradiction; try (exact (resolve_values _ _ _ Ha Hl)).
  destruct He as [<-|[]]; exact I.
Qed.
Lemma tidy_end : forall st q, tidy st -> tidy (end_tag st q).
Proof.
  intros st q H. unfold end_tag. destruct (p_stack st) as [|s ss]; [apply tidy_fail; exact H|].
  destruct (p_names st) as [|n ns]; [apply tidy_fail; exact H|]. destruct (p_nss st); [apply tidy_fail; exact H|].
  destruct (String.eqb s q); [|apply tidy_fail; exact H]. destruct H as (H1 & H2 & H3 & H4 & H5).
  repeat split; cbn [p_out p_raw p_buf p_nonws p_mode]; auto.
  intros e He; apply in_app_or in He; destruct He as [He|[<-|[]]]; [auto|exact I].
Qed.

Lemma tidy_step : forall st c, tidy st -> tidy (pstep st c).
Proof.
  intros st c H. unfold pstep.
  destruct (illegal_char c) eqn:Hc; [destruct (p_mode st); auto using tidy_fail|].
  assert (Ha : forall s, legal s = true -> legal (add1 s c) = true).
  { intros s Hs. unfold add1. rewrite slegal_app, Hs. apply legal_one. exact Hc. }
  pose proof H as (H1 & H2 & H3 & H4 & H5).
  destruct (p_mode st) as [ | |acc|nm ats|nm ats acc|nm ats an|nm ats an|nm ats an q acc|nm ats|nm ats|acc|acc|acc|tl|acc|acc| |msg];
    cbn [legal_mode] in H5;
    repeat match goal with
    | |- tidy (if ?b then _ else _) => destruct b
    end;
    auto using tidy_mode, tidy_fail, tidy_end_raw, tidy_flush, tidy_start, tidy_end, I.
  all: try (apply tidy_mode; [exact H|cbn [legal_mode]; auto; fail]).
  all: try (apply tidy_start; [exact H|intros a []]).
  - repeat split; cbn [p_out p_raw p_buf p_nonws p_mode]; auto.
  - apply tidy_mode; [exact H|intros a []].
  - apply tidy_mode; [exact H|intros a []].
  - destruct H5 as [H5 H6]. destruct (unesc (attr_norm acc)) as [v|] eqn:Hu; [|apply tidy_fail; exact H].
    apply tidy_mode; [exact H|]. intros a Hin. apply in_app_or in Hin. destruct Hin as [Hin|[<-|[]]]; [auto|].
    apply (unesc_legal _ _ _ (norm_legal _ H6) Hu).
  - apply tidy_mode; [exact H|]. destruct H5 as [H5 H6]. split; auto.
  - repeat split; cbn [p_out p_raw p_buf p_nonws p_mode]; auto.
    + rewrite slegal_app, H3. apply all_substring. apply Ha. exact H5.
    + rewrite nonws_app, H4. reflexivity.
  - destruct (pi_kind (add1 acc c)) as [d|]; [destruct (d && negb (p_seen st))%bool; auto using tidy_mode, tidy_fail, I|].
    repeat split; cbn [p_out p_raw p_buf p_nonws p_mode]; auto.
    intros e He; apply in_app_or in He; destruct He as [He|[<-|[]]]; [auto|exact I].
Qed.

Theorem parse_clean : forall s e, In e (s_evs (parse_text s)) -> clean_event e.
Proof.
  intros s. unfold parse_text.
  assert (H : tidy (prun p0 s)).
  { assert (H0 : tidy p0) by (repeat split; intros e [<-|[]]; exact I). revert H0. generalize p0.
    induction s as [|c s IH]; intros st H0; [exact H0|]. cbn [prun]. apply IH. apply tidy_step. exact H0. }
  destruct (prun p0 s) as [m o st nm ns rw bf nw se]. destruct H as (H & _). cbn [p_out] in H.
  unfold pfinish. cbn [p_mode]. destruct m; try exact H.
  unfold end_raw. cbn [p_raw]. destruct (unesc rw); [|exact H].
  cbn [p_mode p_out p_stack p_names p_nss p_raw p_buf p_nonws p_seen pfail set_mode].
  destruct st; [destruct (nw || str_nonws s0)%bool; [|destruct se]|]; exact H.
Qed.
