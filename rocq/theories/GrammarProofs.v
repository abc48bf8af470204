(** * Every document of the grammar in SpecXml.v is parsed as its tree. *)
From Verif Require Import Str Xml XmlText Reader Schema SpecTree SpecReader SpecText IndentProofs TextProofs SpecXml.
Open Scope list_scope.

(** ** Characters *)
Lemma white_ws : forall c, white c -> is_ws c = true.
Proof. intros c [->|[->|[->| ->]]]; reflexivity. Qed.
Lemma ws_white : forall c, is_ws c = true -> white c.
Proof.
  intros c H. unfold white. revert H. destruct c as [[] [] [] [] [] [] [] []]; vm_compute; intros H; try discriminate H; tauto.
Qed.
Lemma not_white : forall c, ~ white c -> is_ws c = false.
Proof. intros c H. destruct (is_ws c) eqn:E; [|reflexivity]. destruct (H (ws_white c E)). Qed.
Lemma legal_ok : forall c, legal_char c -> illegal_char c = false.
Proof.
  intros c [H|H]; [apply ws_legal, white_ws, H|]. unfold illegal_char.
  destruct (Nat.ltb_spec (nat_of_ascii c) 32); [lia|reflexivity].
Qed.
Lemma every_cons : forall P c s, every P (String c s) <-> P c /\ every P s.
Proof. intros P c s. unfold every. cbn [list_ascii_of_string]. split; [intros H; inversion H; auto|intros [H1 H2]; constructor; assumption]. Qed.
Lemma every_app : forall P a b, every P (a +++ b) <-> every P a /\ every P b.
Proof.
  intros P a b. induction a as [|c a IH].
  - cbn [String.append]. split; [intros H; split; [constructor|exact H]|intros [_ H]; exact H].
  - cbn [String.append]. rewrite !every_cons, IH. tauto.
Qed.
Lemma every_all : forall (P : ascii -> Prop) b s, (forall c, P c -> b c = true) -> every P s -> all_chars b s = true.
Proof.
  intros P b s H. induction s as [|c s IH]; intros Hs; [reflexivity|].
  apply every_cons in Hs. destruct Hs as [H1 H2]. cbn [all_chars]. rewrite (H c H1), (IH H2). reflexivity.
Qed.
Lemma all_imp : forall p q s, (forall c, p c = true -> q c = true) -> all_chars p s = true -> all_chars q s = true.
Proof.
  intros p q s H. induction s as [|c s IH]; intros Hs; [reflexivity|].
  cbn [all_chars] in *. apply andb_true_iff in Hs. destruct Hs as [H1 H2]. rewrite (H c H1), (IH H2). reflexivity.
Qed.
Lemma blank_ws : forall s, blank s -> all_chars is_ws s = true.
Proof. intros s. apply every_all, white_ws. Qed.

Lemma letter_start : forall c, letter c -> is_name_start c = true.
Proof.
  intros c H. unfold letter in H. cbv zeta in H. unfold is_name_start, is_name_char, is_alnum. cbv zeta.
  assert (Hc : c <> "-"%char /\ c <> "."%char /\ (Ascii.eqb c "_" = true \/ nat_of_ascii c <> 95)).
  { split; [intros ->; vm_compute in H; lia|]. split; [intros ->; vm_compute in H; lia|].
    destruct (Nat.eq_dec (nat_of_ascii c) 95) as [E|E]; [left|right; exact E].
    apply Ascii.eqb_eq. rewrite <- (ascii_nat_embedding c), E. reflexivity. }
  destruct Hc as (H1 & H2 & H3). apply Ascii.eqb_neq in H1. apply Ascii.eqb_neq in H2. rewrite H1, H2.
  destruct H3 as [H3|H3].
  - rewrite H3. apply Ascii.eqb_eq in H3. subst c. reflexivity.
  - repeat match goal with |- context [Nat.leb ?a ?b] => destruct (Nat.leb_spec a b) end; cbn; try lia;
      rewrite ?orb_true_r; reflexivity.
Qed.
Lemma letter_char : forall c, letter c -> is_name_char c = true.
Proof. intros c H. apply name_start_char, letter_start, H. Qed.
Lemma part_char : forall c, name_part c -> is_name_char c = true.
Proof.
  intros c [H|[H|[->| ->]]]; [apply letter_char, H| |reflexivity|reflexivity].
  unfold is_name_char, is_alnum. cbv zeta.
  repeat match goal with |- context [Nat.leb ?a ?b] => destruct (Nat.leb_spec a b) end; cbn; try lia; reflexivity.
Qed.

(** Names as the parser sees them. *)
Definition named (q : string) : Prop := exists c r, q = String c r /\ is_name_start c = true /\ all_chars is_name_char r = true.
Lemma ncname_all : forall s, ncname s -> all_chars is_name_char s = true.
Proof.
  intros [|c r] H; [destruct H|]. destruct H as [H1 H2]. cbn [all_chars].
  rewrite (letter_char c H1), (every_all _ _ r part_char H2). reflexivity.
Qed.
Lemma ncname_named : forall s, ncname s -> named s.
Proof.
  intros [|c r] H; [destruct H|]. destruct H as [H1 H2]. exists c, r.
  split; [reflexivity|]. split; [apply letter_start, H1|apply (every_all _ _ r part_char H2)].
Qed.
Lemma qualified_named : forall q, qualified q -> named q.
Proof.
  intros q [H|(p & l & Hp & Hl & ->)]; [apply ncname_named, H|].
  destruct (ncname_named p Hp) as (c & r & -> & H1 & H2). exists c, (r +++ ":" +++ l).
  split; [reflexivity|]. split; [exact H1|]. rewrite !all_chars_app, H2. cbn [all_chars]. rewrite (ncname_all l Hl). reflexivity.
Qed.

(** ** References *)
Lemma digit_hex : forall c d, digit c d -> hexval c = Some (N.of_nat d).
Proof.
  intros c d H. destruct H as [H|H];
    do 16 (destruct d as [|d]; [injection H as <-; reflexivity|]); destruct d; discriminate H.
Qed.
Lemma num_of_snoc : forall b s acc n c d, num_of b acc s = Some n -> hexval c = Some d -> N.ltb d b = true ->
  num_of b acc (s +++ String c "") = Some (n * b + d)%N.
Proof.
  intros b s; induction s as [|e s IH]; intros acc n c d Hn Hc Hd.
  - injection Hn as <-. cbn [String.append num_of]. rewrite Hc, Hd. reflexivity.
  - cbn [String.append num_of] in *. destruct (hexval e) as [v|]; [|discriminate]. destruct (N.ltb v b); [|discriminate].
    apply IH; assumption.
Qed.
Lemma numeral_num : forall b s n, numeral b s n -> num_of (N.of_nat b) 0 s = Some n.
Proof.
  intros b s n H. induction H as [c d Hd Hb|s n c d Hn IH Hd Hb].
  - cbn [num_of]. rewrite (digit_hex c d Hd). destruct (N.ltb_spec (N.of_nat d) (N.of_nat b)); [|lia]. reflexivity.
  - apply num_of_snoc; [exact IH|apply digit_hex, Hd|]. apply N.ltb_lt. lia.
Qed.

(** Characters of a reference. *)
Definition ref_char (c : ascii) : bool :=
  (is_alnum c || Ascii.eqb c "#")%bool%char.
Lemma digit_alnum : forall c d, digit c d -> is_alnum c = true.
Proof.
  intros c d H. destruct H as [H|H];
    do 16 (destruct d as [|d]; [injection H as <-; reflexivity|]); destruct d; discriminate H.
Qed.
Lemma numeral_chars : forall b s n, numeral b s n -> all_chars ref_char s = true.
Proof.
  intros b s n H. induction H as [c d Hd Hb|s n c d Hn IH Hd Hb].
  - cbn [all_chars]. unfold ref_char. rewrite (digit_alnum c d Hd). reflexivity.
  - rewrite all_chars_app, IH. cbn [all_chars]. unfold ref_char. rewrite (digit_alnum c d Hd). reflexivity.
Qed.
Lemma reference_chars : forall r v, reference r v -> all_chars ref_char r = true.
Proof.
  intros r v H. destruct H as [| | | | |s n H _|s n H _]; try reflexivity;
    rewrite all_chars_app, (numeral_chars _ _ _ H); reflexivity.
Qed.
Lemma code_point_char : forall n, code_point n -> xml_char n = true.
Proof.
  intros n H. unfold code_point in H. unfold xml_char.
  repeat match goal with
  | |- context [N.leb ?a ?b] => destruct (N.leb_spec a b)
  | |- context [N.ltb ?a ?b] => destruct (N.ltb_spec a b)
  | |- context [N.eqb ?a ?b] => destruct (N.eqb_spec a b)
  end; cbn; try reflexivity; lia.
Qed.
Lemma numeral_nonempty : forall b s n, numeral b s n -> is_empty s = false.
Proof. intros b s n H. destruct H; [reflexivity|]. destruct s; reflexivity. Qed.
Lemma numeral_first : forall s n, numeral 10 s n -> exists c r, s = String c r /\ c <> "x"%char.
Proof.
  intros s n H. induction H as [c d Hd Hb|s n c d Hn IH Hd Hb].
  - exists c, "". split; [reflexivity|]. intros ->. apply digit_hex in Hd. discriminate Hd.
  - destruct IH as (e & r & -> & He). exists e, (r +++ String c ""). split; [reflexivity|exact He].
Qed.
Lemma entity_dec : forall c r, c <> "x"%char ->
  entity (String "#" (String c r)) =
  match num_of 10 0 (String c r) with Some n => if xml_char n then Some (utf8 n) else None | None => None end.
Proof.
  intros c r H. unfold entity. cbn [String.eqb Ascii.eqb Bool.eqb].
  destruct c as [[] [] [] [] [] [] [] []]; try reflexivity. destruct (H eq_refl).
Qed.
Lemma reference_entity : forall r v, reference r v -> entity r = Some v.
Proof.
  intros r v H. destruct H as [| | | | |s n Hn Hc|s n Hn Hc]; try reflexivity.
  - destruct (numeral_first s n Hn) as (c & t & -> & Hx).
    change ("#" +++ String c t) with (String "#" (String c t)). rewrite (entity_dec c t Hx).
    pose proof (numeral_num _ _ _ Hn) as Hv. change (N.of_nat 10) with 10%N in Hv. rewrite Hv.
    rewrite (code_point_char n Hc). reflexivity.
  - change ("#x" +++ s) with (String "#" (String "x" s)). unfold entity. cbn [String.eqb Ascii.eqb Bool.eqb].
    rewrite (numeral_nonempty _ _ _ Hn).
    pose proof (numeral_num _ _ _ Hn) as Hv. change (N.of_nat 16) with 16%N in Hv. rewrite Hv.
    rewrite (code_point_char n Hc). reflexivity.
Qed.

Lemma ref_char_facts : forall c, ref_char c = true ->
  illegal_char c = false /\ is_ws c = false /\ Ascii.eqb c "<" = false /\ Ascii.eqb c ";" = false /\ Ascii.eqb c "&" = false /\
  Ascii.eqb c """" = false /\ Ascii.eqb c "'" = false.
Proof.
  intros c. destruct c as [[] [] [] [] [] [] [] []]; vm_compute; intros H; first [discriminate H|repeat split].
Qed.

Lemma unesc_reference : forall r e s, all_chars ref_char r = true ->
  unesc_aux (Some e) (r +++ String ";" s) =
  match entity (e +++ r), unesc_aux None s with Some x, Some t => Some (x +++ t) | _, _ => None end.
Proof.
  induction r as [|c r IH]; intros e s H.
  - rewrite sapp_nil. reflexivity.
  - cbn [all_chars] in H. apply andb_true_iff in H. destruct H as [H1 H2].
    destruct (ref_char_facts c H1) as (_ & _ & _ & H3 & _).
    cbn [String.append unesc_aux]. rewrite H3. rewrite IH by exact H2. rewrite sapp_assoc. reflexivity.
Qed.

Lemma text_unesc : forall s t, spelled in_text s t -> unesc s = Some t.
Proof.
  intros s t H. unfold unesc. induction H as [|c v s t Hc Hs IH|r v s t Hr Hs IH]; [reflexivity| |].
  - destruct Hc as (_ & _ & Ha & _ & ->). apply Ascii.eqb_neq in Ha. cbn [unesc_aux]. rewrite Ha, IH. reflexivity.
  - change ("&" +++ r +++ ";" +++ s) with (String "&" (r +++ String ";" s)). cbn [unesc_aux].
    change (Ascii.eqb "&" "&") with true. cbv iota.
    rewrite unesc_reference by exact (reference_chars r v Hr). cbn [String.append].
    rewrite (reference_entity r v Hr), IH. reflexivity.
Qed.
Lemma text_raw : forall s t, spelled in_text s t -> raw_ok s = true.
Proof.
  intros s t H. unfold raw_ok. induction H as [|c v s t Hc Hs IH|r v s t Hr Hs IH]; [reflexivity| |].
  - destruct Hc as (Hl & Ha & _). apply Ascii.eqb_neq in Ha. cbn [all_chars]. rewrite IH, (legal_ok c Hl), Ha. reflexivity.
  - change ("&" +++ r +++ ";" +++ s) with (String "&" (r +++ String ";" s)). cbn [all_chars].
    rewrite all_chars_app. cbn [all_chars]. rewrite IH.
    rewrite (all_imp ref_char _ r); [reflexivity| |exact (reference_chars r v Hr)]. intros c Hf.
    destruct (ref_char_facts c Hf) as (H1 & _ & H3 & _). rewrite H1, H3. reflexivity.
Qed.

Lemma norm_plain : forall r, all_chars ref_char r = true -> attr_norm r = r.
Proof.
  induction r as [|c r IH]; intros H; [reflexivity|]. cbn [all_chars] in H. apply andb_true_iff in H. destruct H as [H1 H2].
  destruct (ref_char_facts c H1) as (_ & Hw & _). cbn [attr_norm]. rewrite Hw, IH by exact H2. reflexivity.
Qed.
Lemma value_unesc : forall q s v, spelled (in_value q) s v -> unesc (attr_norm s) = Some v.
Proof.
  intros q s v H. unfold unesc. induction H as [|c w s t Hc Hs IH|r w s t Hr Hs IH]; [reflexivity| |].
  - destruct Hc as (_ & _ & _ & Ha & _ & Hw). apply Ascii.eqb_neq in Ha. cbn [attr_norm].
    destruct Hw as [[Hw ->]|[Hw ->]].
    + rewrite (white_ws c Hw). cbn [unesc_aux]. change (Ascii.eqb " " "&") with false. cbv iota. rewrite IH. reflexivity.
    + rewrite (not_white c Hw). cbn [unesc_aux]. rewrite Ha, IH. reflexivity.
  - change ("&" +++ r +++ ";" +++ s) with (String "&" (r +++ String ";" s)). cbn [attr_norm].
    change (is_ws "&") with false. cbv iota. rewrite attr_norm_app, (norm_plain r (reference_chars r w Hr)).
    cbn [attr_norm]. change (is_ws ";") with false. cbv iota. cbn [unesc_aux].
    change (Ascii.eqb "&" "&") with true. cbv iota.
    rewrite unesc_reference by exact (reference_chars r w Hr). cbn [String.append].
    rewrite (reference_entity r w Hr), IH. reflexivity.
Qed.
Definition value_raw (q : ascii) (s : string) : bool :=
  all_chars (fun c => (negb (illegal_char c) && negb (Ascii.eqb c "<") && negb (Ascii.eqb c q))%bool) s.
Lemma value_raw_ok : forall q s v, q = """"%char \/ q = "'"%char -> spelled (in_value q) s v -> value_raw q s = true.
Proof.
  intros q s v Hq H. unfold value_raw. induction H as [|c w s t Hc Hs IH|r w s t Hr Hs IH]; [reflexivity| |].
  - destruct Hc as (Hl & Hn & Ha & _). apply Ascii.eqb_neq in Ha. apply Ascii.eqb_neq in Hn.
    cbn [all_chars]. rewrite IH, (legal_ok c Hl), Ha, Hn. reflexivity.
  - change ("&" +++ r +++ ";" +++ s) with (String "&" (r +++ String ";" s)). cbn [all_chars].
    rewrite all_chars_app. cbn [all_chars]. rewrite IH.
    rewrite (all_imp ref_char _ r); [destruct Hq as [->| ->]; reflexivity| |exact (reference_chars r w Hr)]. intros c Hf.
    destruct (ref_char_facts c Hf) as (H1 & _ & H3 & _ & _ & H6 & H7). rewrite H1, H3.
    destruct Hq as [->| ->]; rewrite ?H6, ?H7; reflexivity.
Qed.

(** ** The parser, from a state on *)
Lemma set_set : forall p a b, set_mode (set_mode p a) b = set_mode p b.
Proof. reflexivity. Qed.

Lemma run_start_name : forall s p acc, all_chars is_name_char s = true ->
  prun (set_mode p (MStartName acc)) s = set_mode p (MStartName (acc +++ s)).
Proof. intros s p acc H. apply p_start_name, H. Qed.
Lemma run_end_name : forall s p acc, all_chars is_name_char s = true ->
  prun (set_mode p (MEndName acc)) s = set_mode p (MEndName (acc +++ s)).
Proof. intros s p acc H. apply p_end_name, H. Qed.
Lemma run_attr_name : forall s p q ats acc, all_chars is_name_char s = true ->
  prun (set_mode p (MAttrName q ats acc)) s = set_mode p (MAttrName q ats (acc +++ s)).
Proof. intros s p q ats acc H. apply p_attr_name, H. Qed.

(** White space is passed over in these modes. *)
Definition passes (m : pmode) : Prop := forall p c, is_ws c = true -> pstep (set_mode p m) c = set_mode p m.
Lemma run_spaces : forall m w p, passes m -> all_chars is_ws w = true -> prun (set_mode p m) w = set_mode p m.
Proof.
  intros m w p Hm. induction w as [|c w IH]; intros H; [reflexivity|].
  cbn [all_chars] in H. apply andb_true_iff in H. destruct H as [H1 H2]. cbn [prun]. rewrite Hm by exact H1. apply IH, H2.
Qed.
Ltac passing := intros p c H; unfold pstep; rewrite (ws_legal _ H); cbn [p_mode set_mode]; rewrite H; reflexivity.
Lemma passes_attrs : forall q ats, passes (MAttrs q ats). Proof. intros q ats. passing. Qed.
Lemma passes_eq : forall q ats k, passes (MAttrEq q ats k). Proof. intros q ats k. passing. Qed.
Lemma passes_quote : forall q ats k, passes (MAttrQuote q ats k). Proof. intros q ats k. passing. Qed.
Lemma passes_end : forall q, passes (MEndWs q). Proof. intros q. passing. Qed.

Lemma run_value : forall s p q ats k u acc, value_raw u s = true ->
  prun (set_mode p (MAttrVal q ats k u acc)) s = set_mode p (MAttrVal q ats k u (acc +++ s)).
Proof.
  induction s as [|c s IH]; intros p q ats k u acc H.
  - rewrite sapp_nil. reflexivity.
  - unfold value_raw in H. cbn [all_chars] in H. rewrite !andb_true_iff, !negb_true_iff in H.
    destruct H as [[[H1 H2] H3] H4].
    cbn [prun]. unfold pstep. rewrite H1. cbn [p_mode set_mode]. rewrite H3, H2.
    rewrite set_set. rewrite IH by exact H4. rewrite add1_app. reflexivity.
Qed.

Lemma ws_not : forall c, is_ws c = true -> is_name_char c = false /\ Ascii.eqb c "=" = false.
Proof. intros c. destruct c as [[] [] [] [] [] [] [] []]; vm_compute; intros H; first [discriminate H|repeat split]. Qed.

(** After the name or an attribute. *)
Lemma tag_space : forall p q ats c, is_ws c = true -> pstep (set_mode p (tag_mode q ats)) c = set_mode p (MAttrs q ats).
Proof.
  intros p q ats c H. destruct (ws_not c H) as [Hn _]. unfold pstep. rewrite (ws_legal c H). cbn [p_mode set_mode].
  destruct ats; cbn [tag_mode]; rewrite ?Hn, H; reflexivity.
Qed.
Lemma tag_spaces : forall p q ats w, spaces w -> prun (set_mode p (tag_mode q ats)) w = set_mode p (MAttrs q ats).
Proof.
  intros p q ats w [H Hn]. pose proof (blank_ws w H) as Hw. destruct w as [|c w]; [destruct (Hn eq_refl)|].
  cbn [all_chars] in Hw. apply andb_true_iff in Hw. destruct Hw as [H1 H2]. cbn [prun]. rewrite tag_space by exact H1.
  apply run_spaces; [apply passes_attrs|exact H2].
Qed.

Lemma run_attribute : forall p q ats a s, attribute a s ->
  prun (set_mode p (tag_mode q ats)) s = set_mode p (tag_mode q (ats ++ [a])).
Proof.
  intros p q ats a s H. destruct H as [w1 k w2 w3 u s v H1 Hk H2 H3 Hu Hv].
  rewrite prun_app, tag_spaces by exact H1.
  destruct (qualified_named k Hk) as (c & r & -> & Hc & Hr).
  rewrite prun_app. cbn [prun].
  assert (pstep (set_mode p (MAttrs q ats)) c = set_mode p (MAttrName q ats (String c ""))) as ->.
  { pose proof (name_start_char c Hc) as Hn. unfold pstep. rewrite (name_char_legal _ Hn). cbn [p_mode set_mode].
    rewrite (name_char_ws _ Hn). destruct (name_char_sep _ Hn) as (-> & -> & _). rewrite Hc. reflexivity. }
  rewrite run_attr_name by exact Hr. change (String c "" +++ r) with (String c r).
  assert (He : prun (set_mode p (MAttrName q ats (String c r))) (w2 +++ "=" +++ w3 +++ String u (s +++ String u "")) =
               prun (set_mode p (MAttrQuote q ats (String c r))) (w3 +++ String u (s +++ String u ""))).
  { destruct w2 as [|d w2]; [reflexivity|]. pose proof (blank_ws _ H2) as Hw. cbn [all_chars] in Hw.
    apply andb_true_iff in Hw. destruct Hw as [Hd Hw].
    change (String d w2 +++ "=" +++ w3 +++ String u (s +++ String u ""))
      with (String d (w2 +++ String "=" (w3 +++ String u (s +++ String u "")))).
    cbn [prun].
    assert (pstep (set_mode p (MAttrName q ats (String c r))) d = set_mode p (MAttrEq q ats (String c r))) as ->.
    { destruct (ws_not d Hd) as [Hn _]. unfold pstep. rewrite (ws_legal d Hd). cbn [p_mode set_mode]. rewrite Hn, Hd. reflexivity. }
    rewrite prun_app, (run_spaces (MAttrEq q ats (String c r))) by (apply passes_eq || exact Hw). reflexivity. }
  rewrite He. rewrite prun_app, (run_spaces (MAttrQuote q ats (String c r))) by (apply passes_quote || apply blank_ws, H3).
  cbn [prun].
  assert (pstep (set_mode p (MAttrQuote q ats (String c r))) u = set_mode p (MAttrVal q ats (String c r) u "")) as ->.
  { destruct Hu as [->| ->]; reflexivity. }
  rewrite prun_app, run_value by exact (value_raw_ok u s v Hu Hv). cbn [prun String.append].
  unfold pstep. cbn [p_mode set_mode].
  assert (illegal_char u = false) as -> by (destruct Hu as [->| ->]; reflexivity).
  rewrite Ascii.eqb_refl, (value_unesc u s v Hv). rewrite set_set.
  destruct ats; reflexivity.
Qed.
Lemma run_attributes : forall l s, attributes l s -> forall p q ats,
  prun (set_mode p (tag_mode q ats)) s = set_mode p (tag_mode q (ats ++ l)).
Proof.
  intros l s H. induction H as [|a l s t Ha Hl IH]; intros p q ats.
  - rewrite app_nil_r. reflexivity.
  - rewrite prun_app, (run_attribute p q ats a s Ha), IH, <- app_assoc. reflexivity.
Qed.

(** The end of a start tag. *)
Lemma start_tag_mode : forall p m q ats e, start_tag (set_mode p m) q ats e = start_tag p q ats e.
Proof.
  intros p m q ats e. unfold start_tag. cbn [p_nss p_out p_stack p_names set_mode].
  destruct (bad_tag q ats); [reflexivity|].
  destruct (resolve_elem _ _); [|reflexivity]. destruct (resolve_attrs _ _); [|reflexivity]. destruct e; reflexivity.
Qed.
Lemma tag_end : forall p q ats w, blank w -> prun (set_mode p (tag_mode q ats)) (w +++ ">") = start_tag p q ats false.
Proof.
  intros p q ats w H. rewrite prun_app. destruct w as [|c w].
  - rewrite <- (start_tag_mode p (tag_mode q ats)). destruct ats; reflexivity.
  - rewrite tag_spaces by (split; [exact H|discriminate]). rewrite <- (start_tag_mode p (MAttrs q ats)). reflexivity.
Qed.
Lemma tag_end_empty : forall p q ats w, blank w -> prun (set_mode p (tag_mode q ats)) (w +++ "/>") = start_tag p q ats true.
Proof.
  intros p q ats w H. rewrite prun_app.
  assert (Hc : forall m, m = tag_mode q ats \/ m = MAttrs q ats -> prun (set_mode p m) "/>" = start_tag p q ats true).
  { intros m Hm. rewrite <- (start_tag_mode p (MEmptyClose q ats)). destruct Hm as [->| ->]; [destruct ats|]; reflexivity. }
  destruct w as [|c w]; [apply Hc; left; reflexivity|].
  rewrite tag_spaces by (split; [exact H|discriminate]). apply Hc. right; reflexivity.
Qed.

(** ** Comments, processing instructions, CDATA *)
Lemma not_within : forall t s, ~ within t s -> contains t s = false.
Proof. intros t s H. destruct (contains t s) eqn:E; [|reflexivity]. destruct (H (contains_spec t s E)). Qed.
Lemma within_app : forall t s v, within t s -> within t (s +++ v).
Proof. intros t s v (a & b & ->). exists a, (b +++ v). rewrite !sapp_assoc. reflexivity. Qed.
Lemma legal_all : forall s, every legal_char s -> legal s = true.
Proof. intros s H. unfold legal. apply (every_all legal_char _ s); [|exact H]. intros c Hc. rewrite (legal_ok c Hc). reflexivity. Qed.

(** The last two characters. *)
Definition ending (u t : string) : Prop :=
  exists v, u = v +++ t /\ (String.length t = 2 \/ v = "" /\ String.length t < 2).
Lemma comment_step : forall p u t c, ending u t -> legal_char c -> ~ within "--" u ->
  exists t', pstep (set_mode p (MComment t)) c = set_mode p (MComment t') /\ ending (u +++ String c "") t'.
Proof.
  intros p u t c (v & -> & H) Hc Hw.
  assert (Hs : String.eqb t "--" = false).
  { destruct (String.eqb_spec t "--"); [|reflexivity]. subst. exfalso. apply Hw. exists v, "". reflexivity. }
  unfold pstep. rewrite (legal_ok c Hc). cbn [p_mode set_mode]. rewrite Hs, set_set. eexists. split; [reflexivity|].
  destruct t as [|a [|b [|d t]]].
  - exists "". destruct H as [H|[-> _]]; [discriminate H|]. split; [reflexivity|right; split; [reflexivity|cbn; lia]].
  - destruct H as [H|[-> _]]; [discriminate H|]. exists "". split; [reflexivity|left; reflexivity].
  - exists (v +++ String a ""). split; [|left; reflexivity]. rewrite !sapp_assoc. reflexivity.
  - cbn [String.length] in H. lia.
Qed.
Lemma comment_run : forall s p u t, ending u t -> every legal_char s -> ~ within "--" (u +++ s) ->
  exists t', prun (set_mode p (MComment t)) s = set_mode p (MComment t') /\ ending (u +++ s) t'.
Proof.
  induction s as [|c s IH]; intros p u t Hu Hl Hw.
  - exists t. rewrite sapp_nil. split; [reflexivity|exact Hu].
  - apply every_cons in Hl. destruct Hl as [Hc Hl].
    destruct (comment_step p u t c Hu Hc) as (t' & Hp & He).
    { intros Hx. apply Hw. apply within_app, Hx. }
    destruct (IH p (u +++ String c "") t' He Hl) as (t'' & Hp' & He').
    { rewrite sapp_assoc. exact Hw. }
    exists t''. cbn [prun]. rewrite Hp, Hp'. rewrite sapp_assoc in He'. split; [reflexivity|exact He'].
Qed.
Lemma comment_body : forall p c, every legal_char c -> ~ within "--" (c +++ "-") ->
  prun (set_mode p (MComment "")) (c +++ "-->") = set_mode p MContent.
Proof.
  intros p c Hl Hw. assert (Hd : legal_char "-") by (right; vm_compute; lia).
  destruct (comment_run (c +++ "-") p "" "") as (t & Hp & He).
  { exists "". split; [reflexivity|right; split; [reflexivity|cbn; lia]]. }
  { apply every_app. split; [exact Hl|]. apply every_cons. split; [exact Hd|constructor]. }
  { exact Hw. }
  destruct (comment_step p _ t "-" He Hd) as (t' & Hp' & He'); [exact Hw|].
  replace (c +++ "-->") with ((c +++ "-") +++ String "-" (String ">" "")) by (rewrite sapp_assoc; reflexivity).
  rewrite prun_app, Hp. cbn [prun]. rewrite Hp'.
  assert (t' = "--") as ->; [|reflexivity].
  destruct He' as (v & Hv & Hl2). cbn [String.append] in Hv.
  destruct Hl2 as [Hl2|[-> Hl2]].
  - destruct t' as [|a [|b [|d t']]]; try discriminate Hl2.
    replace (v +++ String a (String b "")) with ((v +++ String a "") +++ String b "") in Hv by (rewrite sapp_assoc; reflexivity).
    apply snoc_inj in Hv. destruct Hv as [Hv <-]. apply snoc_inj in Hv. destruct Hv as [_ <-]. reflexivity.
  - exfalso. cbn [String.append] in Hv. rewrite <- Hv, !length_app in Hl2. cbn [String.length] in Hl2. lia.
Qed.

(** A processing instruction: at most an event that is stripped. *)
Lemma pi_run : forall s p a, legal s = true -> contains "?>" (a +++ s) = false ->
  prun (set_mode p (MPI a)) s = set_mode p (MPI (a +++ s)).
Proof.
  induction s as [|c s IH]; intros p a Hl Hc.
  - rewrite sapp_nil. reflexivity.
  - unfold legal in Hl. cbn [all_chars] in Hl. apply andb_true_iff in Hl. destruct Hl as [H1 H2].
    apply negb_true_iff in H1. cbn [prun]. unfold pstep. rewrite H1. cbn [p_mode set_mode].
    replace (a +++ String c s) with (add1 a c +++ s) in Hc by (rewrite add1_app; reflexivity).
    pose proof (contains_less _ _ _ Hc) as Hc'.
    assert ((Nat.leb 2 (String.length (add1 a c)) &&
      String.eqb (substring (String.length (add1 a c) - 2) 2 (add1 a c)) "?>")%bool = false) as ->.
    { destruct (_ && _)%bool eqn:Hb; [|reflexivity]. exfalso.
      apply andb_true_iff in Hb. destruct Hb as [Hb1 Hb2]. apply Nat.leb_le in Hb1. apply String.eqb_eq in Hb2.
      pose proof (sub_split (add1 a c) (String.length (add1 a c) - 2) ltac:(lia)) as Hsp.
      replace (String.length (add1 a c) - (String.length (add1 a c) - 2)) with 2 in Hsp by lia.
      rewrite Hb2 in Hsp. rewrite Hsp in Hc'.
      rewrite <- (sapp_nil "?>") in Hc' at 2. rewrite contains_app in Hc'; [discriminate|discriminate]. }
    rewrite set_set, IH by assumption. rewrite add1_app. reflexivity.
Qed.

Lemma pi_body : forall p w, legal w = true -> contains "?>" w = false ->
  pi_kind (w +++ "?>") = None \/ (pi_kind (w +++ "?>") = Some true /\ p_seen p = false) ->
  like (prun (set_mode p (MPI "")) (w +++ "?>")) (set_mode p MContent).
Proof.
  intros p w Hl Hc Hk.
  assert (H1 : contains "?>" (w +++ "?") = false) by (exact (contains_snoc w "?" "?" ">" Hc ltac:(discriminate))).
  replace (w +++ "?>") with ((w +++ "?") +++ ">") by (rewrite sapp_assoc; reflexivity).
  rewrite prun_app, pi_run.
  2:{ unfold legal in *. rewrite all_chars_app, Hl. reflexivity. }
  2:{ exact H1. }
  cbn [prun String.append]. unfold pstep. change (illegal_char ">") with false. cbv iota. cbn [p_mode set_mode].
  replace (add1 (w +++ "?") ">") with (w +++ "?>") by (unfold add1; rewrite sapp_assoc; reflexivity).
  rewrite length_app. change (String.length "?>") with 2.
  replace (String.length w + 2 - 2) with (String.length w) by lia.
  pose proof (sub_back w "?>") as Hb. change (String.length "?>") with 2 in Hb. rewrite Hb.
  replace (Nat.leb 2 (String.length w + 2)) with true by (symmetry; apply Nat.leb_le; lia).
  change (true && String.eqb "?>" "?>")%bool with true. cbv iota. rewrite set_set.
  destruct Hk as [-> |[-> Hk]]; [|cbn [p_seen set_mode]; rewrite Hk; apply like_refl]. left. repeat split; [apply ml_same|]. cbn [p_out set_mode]. unfold strip. rewrite filter_app. cbn [filter].
  apply app_nil_r.
Qed.

(** ** Texts *)
(** Between two pieces of markup. *)
Definition calm (p : pst) : Prop := p_mode p = MContent /\ p_raw p = "" /\ p_buf p = "" /\ p_nonws p = false.
Definition failed (p : pst) : Prop := exists m, p_mode p = MFail m.
Definition loaded (p : pst) (m : pmode) (t : string) : pst :=
  Pst m (p_out p) (p_stack p) (p_names p) (p_nss p) "" t (str_nonws t) (p_seen p).
Lemma calm_loaded : forall p, calm p -> p = loaded p MContent "".
Proof. intros [m o st nm ns rw bf nw se] (H1 & H2 & H3 & H4). cbn in *. subst. reflexivity. Qed.

Lemma chars_open : forall p b s t, characters s t ->
  prun (loaded p MContent b) (s +++ "<") = loaded p MTagOpen (b +++ t).
Proof.
  intros p b s t [H _]. rewrite prun_app. unfold loaded at 1. rewrite p_raw_run by exact (text_raw s t H).
  cbn [prun String.append]. unfold pstep. change (illegal_char "<") with false. cbv iota. cbn [p_mode].
  change (Ascii.eqb "<" "<") with true. cbv iota. unfold end_raw. cbn [p_raw p_out p_stack p_names p_nss p_buf p_nonws p_seen].
  rewrite (text_unesc s t H). unfold loaded. rewrite nonws_app. reflexivity.
Qed.
Lemma comment_open : forall p b s, comment s -> exists r, s = String "<" r /\ prun (loaded p MTagOpen b) r = loaded p MContent b.
Proof.
  intros p b s (c & Hl & Hw & ->). exists ("!--" +++ c +++ "-->"). split; [reflexivity|].
  rewrite prun_app. change (prun (loaded p MTagOpen b) "!--") with (set_mode (loaded p MTagOpen b) (MComment "")).
  rewrite comment_body by assumption. reflexivity.
Qed.
Lemma cdata_open : forall p b s t, p_stack p <> [] -> cdata s t ->
  exists r, s = String "<" r /\ prun (loaded p MTagOpen b) r = loaded p MContent (b +++ t).
Proof.
  intros p b s t Hp (Hl & _ & Hw & ->). exists ("![CDATA[" +++ t +++ "]]>"). split; [reflexivity|].
  destruct (p_stack p) as [|q stack] eqn:Hs; [destruct (Hp eq_refl)|].
  pose proof (p_cdata t q (p_out p) stack (p_names p) (p_nss p) (p_seen p) "" b (legal_all t Hl) (not_within _ _ Hw)) as H.
  rewrite !sapp_nil in H. change (esc_pcdata "") with "" in H.
  change ("<![CDATA[" +++ t +++ "]]>") with (String "<" ("![CDATA[" +++ t +++ "]]>")) in H. cbn [prun] in H.
  unfold loaded. rewrite Hs. rewrite <- H. f_equal.
  unfold pstep. change (illegal_char "<") with false. cbv iota. cbn [p_mode].
  change (Ascii.eqb "<" "<") with true. cbv iota. unfold end_raw. cbn [p_raw p_out p_stack p_names p_nss p_buf p_nonws p_seen].
  change (unesc "") with (Some ""). cbv iota. rewrite sapp_nil. change (str_nonws "") with false. rewrite orb_false_r. reflexivity.
Qed.
Lemma run_open : forall p s t, p_stack p <> [] -> text_run s t -> forall b,
  prun (loaded p MContent b) (s +++ "<") = loaded p MTagOpen (b +++ t).
Proof.
  intros p s t Hp H. induction H as [s t Hc|s t i u s' t' Hc Hi Hr IH]; intros b.
  - apply chars_open, Hc.
  - assert (Hx : exists r, i = String "<" r /\ forall b, prun (loaded p MTagOpen b) r = loaded p MContent (b +++ u)).
    { destruct Hi as [Hi|[Hi ->]].
      - pose proof Hi as (_ & _ & _ & Hs). exists ("![CDATA[" +++ u +++ "]]>"). split; [exact Hs|]. intros b'.
        destruct (cdata_open p b' i u Hp Hi) as (r & Hr' & H). rewrite Hs in Hr'. injection Hr' as <-. exact H.
      - pose proof Hi as (c & _ & _ & Hs). exists ("!--" +++ c +++ "-->"). split; [exact Hs|]. intros b'.
        destruct (comment_open p b' i Hi) as (r & Hr' & H). rewrite Hs in Hr'. injection Hr' as <-. rewrite sapp_nil. exact H. }
    destruct Hx as (r & -> & Hx).
    replace ((s +++ String "<" r +++ s') +++ "<") with ((s +++ "<") +++ r +++ s' +++ "<")
      by (rewrite !sapp_assoc; reflexivity).
    rewrite prun_app, (chars_open p b s t Hc), prun_app, Hx, IH, !sapp_assoc. reflexivity.
Qed.

(** ** Trees *)
(** What the parser's state becomes with a tree. *)
Definition add_text (s : string) (p : pst) : pst :=
  Pst (p_mode p) (p_out p ++ [EChars s]) (p_stack p) (p_names p) (p_nss p) (p_raw p) (p_buf p) (p_nonws p) (p_seen p).
Definition unless_failed (f : pst -> pst) (p : pst) : pst := match p_mode p with MFail _ => p | _ => f p end.
Fixpoint absorb (t : xnode) (p : pst) {struct t} : pst :=
  unless_failed (fun p =>
    match t with
    | XTxt s => add_text s p
    | XElem q ats kids =>
        unless_failed (fun p => end_tag p q)
          ((fix go (l : list xnode) (p : pst) : pst := match l with [] => p | k :: r => go r (absorb k p) end) kids
             (start_tag p q ats false))
    end) p.
Fixpoint absorbs (l : list xnode) (p : pst) : pst := match l with [] => p | k :: r => absorbs r (absorb k p) end.
Lemma absorb_elem : forall q ats kids p,
  absorb (XElem q ats kids) p =
  unless_failed (fun p => unless_failed (fun p => end_tag p q) (absorbs kids (start_tag p q ats false))) p.
Proof. reflexivity. Qed.
Lemma absorbs_app : forall a b p, absorbs (a ++ b) p = absorbs b (absorbs a p).
Proof. induction a as [|x a IH]; intros b p; [reflexivity|]. cbn [absorbs app]. apply IH. Qed.

(** States within the same elements. *)
Definition level (p p' : pst) : Prop := p_stack p = p_stack p' /\ p_names p = p_names p' /\ p_nss p = p_nss p'.
Definition settled_at (p p' : pst) : Prop := failed p' \/ calm p' /\ level p p'.
Lemma failed_absorb : forall t p, failed p -> absorb t p = p.
Proof. intros [q ats ks|s] p [m H]; cbn [absorb]; unfold unless_failed; rewrite H; reflexivity. Qed.
Lemma failed_absorbs : forall l p, failed p -> absorbs l p = p.
Proof. induction l as [|t l IH]; intros p H; [reflexivity|]. cbn [absorbs]. rewrite (failed_absorb t p H). exact (IH p H). Qed.
Lemma failed_run : forall s p, failed p -> prun p s = p.
Proof.
  induction s as [|c s IH]; intros p H; [reflexivity|]. cbn [prun]. destruct H as [m H].
  assert (Hs : pstep p c = p) by (unfold pstep; rewrite H; destruct (illegal_char c); reflexivity).
  rewrite Hs. apply IH. exists m. exact H.
Qed.
Lemma unless_calm : forall f p, calm p -> unless_failed f p = f p.
Proof. intros f p (H & _). unfold unless_failed. rewrite H. reflexivity. Qed.
Lemma unless_fail : forall f p, failed p -> unless_failed f p = p.
Proof. intros f p [m H]. unfold unless_failed. rewrite H. reflexivity. Qed.

Lemma xnode_ind' : forall P : xnode -> Prop,
  (forall s, P (XTxt s)) -> (forall q ats ks, Forall P ks -> P (XElem q ats ks)) -> forall t, P t.
Proof.
  intros P Ht He. fix IH 1. intros [q ats ks|s]; [|apply Ht]. apply He.
  induction ks as [|k ks IHk]; constructor; [apply IH|exact IHk].
Qed.
Lemma start_tag_cases : forall p q ats, failed (start_tag p q ats false) \/
  calm (start_tag p q ats false) /\
  exists n, p_stack (start_tag p q ats false) = q :: p_stack p /\ p_names (start_tag p q ats false) = n :: p_names p /\
    p_nss (start_tag p q ats false) = decls_of ats :: p_nss p.
Proof.
  intros p q ats. unfold start_tag. destruct (bad_tag q ats); [left; eexists; reflexivity|].
  destruct (resolve_elem _ _) as [n|]; [|left; eexists; reflexivity].
  destruct (resolve_attrs _ _) as [al|]; [|left; eexists; reflexivity].
  right. split; [repeat split|exists n; repeat split].
Qed.
Lemma absorbs_settled : forall l, Forall (fun t => forall p, calm p -> settled_at p (absorb t p)) l ->
  forall p, calm p -> settled_at p (absorbs l p).
Proof.
  intros l H. induction H as [|t l Ht Hl IH]; intros p Hp; [right; split; [exact Hp|repeat split]|].
  cbn [absorbs]. destruct (Ht p Hp) as [Hf|[Hc Hv]]; [rewrite (failed_absorbs l _ Hf); left; exact Hf|].
  destruct (IH _ Hc) as [Hf|[Hc' Hv']]; [left; exact Hf|right]. split; [exact Hc'|].
  destruct Hv as (A & B & C), Hv' as (A' & B' & C'). repeat split; congruence.
Qed.
Lemma absorb_settled : forall t p, calm p -> settled_at p (absorb t p).
Proof.
  induction t as [s|q ats ks IH] using xnode_ind'; intros p Hp.
  - cbn [absorb]. rewrite (unless_calm _ _ Hp). right. split; [exact Hp|repeat split].
  - rewrite absorb_elem, (unless_calm _ _ Hp).
    destruct (start_tag_cases p q ats) as [Hf|(Hc & n & A & B & C)].
    { rewrite (failed_absorbs ks _ Hf), (unless_fail _ _ Hf). left. exact Hf. }
    destruct (absorbs_settled ks IH _ Hc) as [Hf|[Hc' Hv']].
    { rewrite (unless_fail _ _ Hf). left. exact Hf. }
    rewrite (unless_calm _ _ Hc'). destruct Hv' as (A' & B' & C').
    unfold end_tag. rewrite <- A', <- B', <- C', A, B, C, String.eqb_refl. right. split; repeat split.
Qed.
Lemma absorbs_ok : forall l p, calm p -> settled_at p (absorbs l p).
Proof. intros l. apply absorbs_settled. apply Forall_forall. intros t _. apply absorb_settled. Qed.

(** Flushing a text. *)
Lemma trim_dark : forall s, starts_dark s -> ends_dark s -> trim s = s.
Proof.
  intros s Hs (u & c & -> & Hc). unfold trim.
  assert (Hts : trim_start (u +++ String c "") = u +++ String c "").
  { destruct u as [|d u]; cbn [String.append trim_start] in *; [rewrite (not_white c Hc); reflexivity|].
    rewrite (not_white d Hs). reflexivity. }
  rewrite Hts. clear Hs Hts. induction u as [|d u IH]; cbn [String.append trim_end].
  - rewrite (not_white c Hc). reflexivity.
  - rewrite IH. destruct u; reflexivity.
Qed.
Lemma trim_blank : forall u s, blank u -> trim (u +++ s) = trim s.
Proof.
  unfold trim. intros u s H. f_equal. pose proof (blank_ws u H) as Hw. clear H.
  induction u as [|c u IH]; [reflexivity|]. cbn [all_chars] in Hw. apply andb_prop in Hw. destruct Hw as [Hc Hw].
  cbn [String.append trim_start]. rewrite Hc. exact (IH Hw).
Qed.
Lemma blank_nonws : forall t, blank t -> str_nonws t = false.
Proof. intros t H. unfold str_nonws. rewrite (blank_ws t H). reflexivity. Qed.
Lemma dark_nonws : forall s, starts_dark s -> str_nonws s = true.
Proof. intros [|c s] H; [destruct H|]. unfold str_nonws. cbn [all_chars]. rewrite (not_white c H). reflexivity. Qed.
Lemma flush_text : forall p t ts m, calm p -> text_nodes t ts -> (p_stack p = [] -> ts = []) ->
  flush (loaded p MTagOpen t) m = set_mode (absorbs ts p) m /\ calm (absorbs ts p).
Proof.
  intros p t ts m Hp H Hs. destruct H as [t Ht|u s v Hu Hv Hd He].
  - unfold flush, loaded. cbn [p_nonws p_stack p_out p_names p_nss p_raw p_seen absorbs]. rewrite (blank_nonws t Ht).
    split; [|exact Hp]. rewrite (calm_loaded p Hp). reflexivity.
  - cbn [absorbs absorb]. rewrite (unless_calm _ _ Hp).
    split; [|destruct Hp as (A & B & C & D); repeat split; assumption].
    unfold flush, loaded. cbn [p_nonws p_stack p_out p_names p_nss p_raw p_buf p_seen].
    rewrite !nonws_app, (dark_nonws s Hd), orb_true_r.
    destruct (p_stack p) as [|a st] eqn:E; [discriminate (Hs eq_refl)|].
    rewrite (trim_blank u _ Hu), (trim_app_ws s v (blank_ws v Hv)), (trim_dark s Hd He).
    rewrite (calm_loaded p Hp). unfold add_text, set_mode, loaded. cbn. rewrite E. reflexivity.
Qed.

(** ** Elements *)
Lemma open_name : forall p t ts q, calm p -> text_nodes t ts -> (p_stack p = [] -> ts = []) -> qualified q ->
  prun (loaded p MTagOpen t) q = set_mode (absorbs ts p) (tag_mode q []).
Proof.
  intros p t ts q Hp Ht Hs Hq. destruct (qualified_named q Hq) as (c & r & -> & Hi & Hr). cbn [prun].
  assert (Hst : pstep (loaded p MTagOpen t) c = flush (loaded p MTagOpen t) (MStartName (String c ""))).
  { unfold pstep. pose proof (name_start_char c) as Hx.
    rewrite (name_char_legal c (Hx Hi)). cbn [p_mode loaded].
    assert (H3 : Ascii.eqb c "/" = false /\ Ascii.eqb c "!" = false /\ Ascii.eqb c "?" = false).
    { revert Hi. clear. destruct c as [[] [] [] [] [] [] [] []]; vm_compute; intros H; first [discriminate H|repeat split]. }
    destruct H3 as (-> & -> & ->). rewrite Hi. reflexivity. }
  rewrite Hst, (proj1 (flush_text p t ts _ Hp Ht Hs)), run_start_name by exact Hr. reflexivity.
Qed.
Lemma end_tag_mode : forall p m q, end_tag (set_mode p m) q = end_tag p q.
Proof.
  intros [m' o st nm ns rw bf nw se] m q. unfold end_tag. cbn [p_stack p_names p_nss p_out p_seen set_mode].
  destruct st; [reflexivity|]. destruct nm; [reflexivity|]. destruct ns; [reflexivity|]. destruct (String.eqb _ _); reflexivity.
Qed.
Lemma close_tag : forall p q w, qualified q -> blank w ->
  prun (set_mode p (MEndName "")) (q +++ w +++ ">") = end_tag p q.
Proof.
  intros p q w Hq Hw. destruct (qualified_named q Hq) as (c & r & -> & Hi & Hr).
  rewrite prun_app, run_end_name by (cbn [all_chars]; rewrite (name_start_char c Hi), Hr; reflexivity).
  change ("" +++ String c r) with (String c r). rewrite prun_app. destruct w as [|d w].
  - cbn [prun]. rewrite <- (end_tag_mode p (MEndName (String c r))). reflexivity.
  - pose proof (blank_ws _ Hw) as Hb. cbn [all_chars] in Hb. apply andb_prop in Hb. destruct Hb as [Hd Hb].
    cbn [prun]. assert (Hst : pstep (set_mode p (MEndName (String c r))) d = set_mode p (MEndWs (String c r))).
    { unfold pstep. rewrite (ws_legal d Hd). cbn [p_mode set_mode].
      destruct (is_name_char d) eqn:E; [rewrite (name_char_ws d E) in Hd; discriminate Hd|]. rewrite Hd. reflexivity. }
    rewrite Hst, run_spaces; [|intros p' c' Hc'; unfold pstep; rewrite (ws_legal c' Hc'); cbn [p_mode set_mode]; rewrite Hc'; reflexivity|exact Hb].
    rewrite <- (end_tag_mode p (MEndWs (String c r))). reflexivity.
Qed.
Lemma start_tag_empty : forall p q ats, calm p ->
  start_tag p q ats true = unless_failed (fun p => end_tag p q) (start_tag p q ats false).
Proof.
  intros p q ats (A & B & C & D). unfold start_tag. destruct (bad_tag q ats); [reflexivity|].
  destruct (resolve_elem _ _) as [n|]; [|reflexivity]. destruct (resolve_attrs _ _) as [al|]; [|reflexivity].
  unfold unless_failed, end_tag. cbn [p_mode p_stack p_names p_nss p_out p_seen]. rewrite String.eqb_refl, <- app_assoc. reflexivity.
Qed.

Lemma name_query : forall n d, all_chars is_name_char n = true -> contains "?>" (n +++ d) = contains "?>" d.
Proof.
  induction n as [|c n IH]; intros d H; [reflexivity|]. cbn [all_chars] in H. apply andb_prop in H. destruct H as [Hc H].
  rewrite sapp_cons. cbn [contains]. rewrite (IH d H).
  assert (Hp : String.prefix "?>" (String c (n +++ d)) = false).
  { cbn [String.prefix]. destruct (ascii_dec "?" c) as [E|_]; [|reflexivity]. rewrite <- E in Hc. discriminate Hc. }
  rewrite Hp. reflexivity.
Qed.
(** A processing instruction that is not called xml. *)
Lemma kind_second : forall x c r, is_ws c = true \/ c = "?"%char -> pi_kind (String x (String c r)) = None.
Proof.
  intros x c [|l [|e r]] H; try reflexivity. unfold pi_kind.
  assert (Hc : (Ascii.eqb c "m" || Ascii.eqb c "M")%bool = false) by (destruct H as [H| ->]; [|reflexivity]; destruct c as [[] [] [] [] [] [] [] []]; try discriminate H; reflexivity).
  rewrite Hc, !andb_false_r. reflexivity.
Qed.
Lemma kind_third : forall x m c r, is_ws c = true \/ c = "?"%char -> pi_kind (String x (String m (String c r))) = None.
Proof.
  intros x m c [|e r] H; try reflexivity. unfold pi_kind.
  assert (Hc : (Ascii.eqb c "l" || Ascii.eqb c "L")%bool = false) by (destruct H as [H| ->]; [|reflexivity]; destruct c as [[] [] [] [] [] [] [] []]; try discriminate H; reflexivity).
  rewrite Hc, !andb_false_r. reflexivity.
Qed.
Lemma kind_name : forall x m l c r, is_name_char c = true -> pi_kind (String x (String m (String l (String c r)))) = None.
Proof.
  intros x m l c r H. unfold pi_kind.
  assert (Hc : (is_ws c || Ascii.eqb c "?")%bool = false) by (destruct c as [[] [] [] [] [] [] [] []]; try discriminate H; reflexivity).
  rewrite Hc, !andb_false_r. reflexivity.
Qed.
Lemma pi_named : forall n d, ncname n ->
  (forall a b c, n = String a (String b (String c "")) ->
     ~ ((a = "x"%char \/ a = "X"%char) /\ (b = "m"%char \/ b = "M"%char) /\ (c = "l"%char \/ c = "L"%char))) ->
  (d = "" \/ exists c r, d = String c r /\ white c) -> pi_kind ((n +++ d) +++ "?>") = None.
Proof.
  intros n d Hn Hx Hd.
  assert (Hs : exists c r, d +++ "?>" = String c r /\ (is_ws c = true \/ c = "?"%char)).
  { destruct Hd as [->|(c & r & -> & Hc)]; [exists "?"%char, ">"; auto|]. exists c, (r +++ "?>"). split; [reflexivity|left].
    destruct Hc as [->|[->|[->| ->]]]; reflexivity. }
  destruct Hs as (c & r & Hs & Hc). rewrite sapp_assoc, Hs.
  destruct (ncname_named n Hn) as (x & n' & -> & _ & Hr).
  destruct n' as [|m [|l [|e n']]]; cbn [String.append].
  - apply kind_second, Hc.
  - apply kind_third, Hc.
  - unfold pi_kind. specialize (Hx x m l eq_refl).
    destruct (_ && _)%bool eqn:Hb; [|reflexivity]. exfalso. apply Hx. rewrite !andb_true_iff, !orb_true_iff, !Ascii.eqb_eq in Hb. tauto.
  - apply kind_name. cbn [all_chars] in Hr. rewrite !andb_true_iff in Hr. tauto.
Qed.
Lemma pi_open : forall p t ts s, calm p -> text_nodes t ts -> (p_stack p = [] -> ts = []) -> pi s ->
  exists r, s = String "<" r /\ like (prun (loaded p MTagOpen t) r) (absorbs ts p).
Proof.
  intros p t ts s Hp Ht Hs (n & d & Hn & Hx & Hd & Hl & Hw & ->). exists (String "?" ((n +++ d) +++ "?>")).
  split; [rewrite sapp_assoc; reflexivity|]. cbn [prun].
  assert (Hst : pstep (loaded p MTagOpen t) "?" = flush (loaded p MTagOpen t) (MPI "")) by reflexivity.
  destruct (flush_text p t ts (MPI "") Hp Ht Hs) as [Hf Hc]. rewrite Hst, Hf.
  eapply like_trans; [apply pi_body|].
  - unfold legal. rewrite all_chars_app. pose proof (legal_all d Hl) as Hld. unfold legal in Hld. rewrite Hld, andb_true_r.
    destruct (ncname_named n Hn) as (c & r & -> & Hi & Hr). cbn [all_chars].
    rewrite (name_char_legal c (name_start_char c Hi)). revert Hr. clear. induction r as [|x r IH]; [reflexivity|].
    cbn [all_chars]. intros H. apply andb_prop in H. destruct H as [H1 H2]. rewrite (name_char_legal x H1). exact (IH H2).
  - destruct (ncname_named n Hn) as (c & r & -> & Hi & Hr). rewrite name_query; [exact (not_within _ _ Hw)|].
    cbn [all_chars]. rewrite (name_start_char c Hi), Hr. reflexivity.
  - left. exact (pi_named n d Hn Hx Hd).
  - destruct Hc as (A & _). rewrite <- A. destruct (absorbs ts p); apply like_refl.
Qed.

Scheme element_rec := Minimality for element Sort Prop
  with inside_rec := Minimality for inside Sort Prop.
Combined Scheme element_inside_ind from element_rec, inside_rec.

Definition enter (m : pmode) (p : pst) : pst := unless_failed (fun p => set_mode p m) p.
Definition element_ok (e : xnode) (s : string) : Prop :=
  exists r, s = String "<" r /\
    forall p t ts, calm p -> text_nodes t ts -> (p_stack p = [] -> ts = []) ->
      like (prun (loaded p MTagOpen t) r) (absorb e (absorbs ts p)).
Definition inside_ok (ks : list xnode) (s : string) : Prop :=
  forall p, calm p -> p_stack p <> [] -> like (prun p (s +++ "</")) (enter (MEndName "") (absorbs ks p)).

Lemma flush_calm : forall p t ts, calm p -> text_nodes t ts -> (p_stack p = [] -> ts = []) -> calm (absorbs ts p).
Proof. intros p t ts Hp Ht Hs. exact (proj2 (flush_text p t ts MContent Hp Ht Hs)). Qed.
Lemma go_on : forall p p' ks s, inside_ok ks s -> settled_at p p' -> p_stack p <> [] ->
  like (prun p' (s +++ "</")) (enter (MEndName "") (absorbs ks p')).
Proof.
  intros p p' ks s H [Hf|[Hc Hv]] Hs.
  - rewrite (failed_run _ _ Hf), (failed_absorbs _ _ Hf). unfold enter. rewrite (unless_fail _ _ Hf). apply like_refl.
  - apply H; [exact Hc|]. rewrite <- (proj1 Hv). exact Hs.
Qed.
Lemma settled_trans : forall p p1 p2, calm p1 /\ level p p1 -> settled_at p1 p2 -> settled_at p p2.
Proof.
  intros p p1 p2 [_ (A & B & C)] [Hf|[Hc (A' & B' & C')]]; [left; exact Hf|right]. split; [exact Hc|]. repeat split; congruence.
Qed.
Lemma text_settled : forall p t ts, calm p -> text_nodes t ts -> (p_stack p = [] -> ts = []) ->
  calm (absorbs ts p) /\ level p (absorbs ts p).
Proof.
  intros p t ts Hp Ht Hs. pose proof (flush_calm p t ts Hp Ht Hs) as Hc. split; [exact Hc|].
  destruct (absorbs_ok ts p Hp) as [[m Hm]|[_ Hv]]; [|exact Hv]. destruct Hc as (A & _). rewrite A in Hm. discriminate Hm.
Qed.

Lemma tree_ok : (forall e s, element e s -> element_ok e s) /\ (forall ks s, inside ks s -> inside_ok ks s).
Proof.
  apply element_inside_ind.
  - (* an empty element *)
    intros q ats a w Hq Ha Hw. exists (q +++ a +++ w +++ "/>"). split; [reflexivity|].
    intros p t ts Hp Ht Hs. pose proof (flush_calm p t ts Hp Ht Hs) as Hc.
    rewrite prun_app, (open_name p t ts q Hp Ht Hs Hq), prun_app, (run_attributes ats a Ha), app_nil_l, (tag_end_empty _ q ats w Hw).
    rewrite absorb_elem, (unless_calm _ _ Hc), (start_tag_empty _ q ats Hc). apply like_refl.
  - (* an element with content *)
    intros q ats a w kids c w' Hq Ha Hw Hi IH Hw'.
    exists (q +++ a +++ w +++ ">" +++ c +++ "</" +++ q +++ w' +++ ">"). split; [reflexivity|].
    intros p t ts Hp Ht Hs. pose proof (flush_calm p t ts Hp Ht Hs) as Hc.
    replace (q +++ a +++ w +++ ">" +++ c +++ "</" +++ q +++ w' +++ ">") with
      (q +++ a +++ (w +++ ">") +++ (c +++ "</") +++ q +++ w' +++ ">") by (rewrite !sapp_assoc; reflexivity).
    rewrite prun_app, (open_name p t ts q Hp Ht Hs Hq), prun_app, (run_attributes ats a Ha), app_nil_l, prun_app, (tag_end _ q ats w Hw).
    rewrite absorb_elem, (unless_calm _ _ Hc), prun_app.
    destruct (start_tag_cases (absorbs ts p) q ats) as [Hf|(Hc' & n & A & B & C)].
    { rewrite (failed_run _ _ Hf), (failed_run _ _ Hf), (failed_absorbs _ _ Hf), (unless_fail _ _ Hf). apply like_refl. }
    eapply like_trans; [apply like_run, IH; [exact Hc'|rewrite A; discriminate]|].
    destruct (absorbs_ok kids _ Hc') as [Hf|[Hk _]].
    { unfold enter. rewrite !(unless_fail _ _ Hf), (failed_run _ _ Hf). apply like_refl. }
    unfold enter. rewrite !(unless_calm _ _ Hk), (close_tag _ q w' Hq Hw'). apply like_refl.
  - (* the end of the content *)
    intros s t ts Hr Ht p Hp Hs.
    replace (s +++ "</") with ((s +++ "<") +++ "/") by (rewrite sapp_assoc; reflexivity).
    rewrite (calm_loaded p Hp) at 1. rewrite prun_app, (run_open p s t Hs Hr ""). cbn [prun String.append].
    assert (Hst : pstep (loaded p MTagOpen t) "/" = flush (loaded p MTagOpen t) (MEndName "")) by reflexivity.
    assert (Hs' : p_stack p = [] -> ts = []) by (intros E; destruct (Hs E)).
    rewrite Hst, (proj1 (flush_text p t ts _ Hp Ht Hs')). unfold enter.
    rewrite (unless_calm _ _ (flush_calm p t ts Hp Ht Hs')). apply like_refl.
  - (* a child element *)
    intros s t ts e se ks sk Hr Ht He (r & -> & IHe) Hk IHk p Hp Hs.
    replace ((s +++ String "<" r +++ sk) +++ "</") with ((s +++ "<") +++ r +++ sk +++ "</")
      by (rewrite !sapp_assoc; reflexivity).
    rewrite (calm_loaded p Hp) at 1. rewrite prun_app, (run_open p s t Hs Hr ""). change ("" +++ t) with t.
    assert (Hs' : p_stack p = [] -> ts = []) by (intros E; destruct (Hs E)).
    rewrite prun_app. eapply like_trans; [apply like_run, IHe; eassumption|].
    rewrite absorbs_app. cbn [absorbs]. pose proof (text_settled p t ts Hp Ht Hs') as Hx.
    apply (go_on p); [exact IHk| |exact Hs].
    eapply settled_trans; [exact Hx|]. apply absorb_settled. exact (proj1 Hx).
  - (* a processing instruction *)
    intros s t ts pr ks sk Hr Ht Hpi Hk IHk p Hp Hs.
    assert (Hs' : p_stack p = [] -> ts = []) by (intros E; destruct (Hs E)).
    destruct (pi_open p t ts pr Hp Ht Hs' Hpi) as (r & -> & Hl).
    replace ((s +++ String "<" r +++ sk) +++ "</") with ((s +++ "<") +++ r +++ sk +++ "</")
      by (rewrite !sapp_assoc; reflexivity).
    rewrite (calm_loaded p Hp) at 1. rewrite prun_app, (run_open p s t Hs Hr ""). change ("" +++ t) with t.
    rewrite prun_app. eapply like_trans; [apply like_run, Hl|].
    rewrite absorbs_app. pose proof (text_settled p t ts Hp Ht Hs') as Hx.
    apply (go_on p); [exact IHk|right; exact Hx|exact Hs].
Qed.

(** ** Outside the root element *)
(** Only white space so far since the last markup. *)
Definition waits (p : pst) : Prop :=
  p_mode p = MContent /\ p_stack p = [] /\ blank (p_raw p) /\ blank (p_buf p) /\ p_nonws p = false.
Definition rest (p : pst) : pst := Pst MContent (p_out p) (p_stack p) (p_names p) (p_nss p) "" "" false (p_seen p).
Lemma rest_calm : forall p, calm (rest p). Proof. intros p. repeat split. Qed.
Lemma blank_app : forall a b, blank a -> blank b -> blank (a +++ b).
Proof. intros a b Ha Hb. apply every_app. split; assumption. Qed.
Lemma blank_unesc : forall w, blank w -> unesc w = Some w.
Proof.
  unfold unesc. induction w as [|c w IH]; intros H; [reflexivity|].
  apply every_cons in H. destruct H as [Hc H]. assert (Ha : Ascii.eqb c "&" = false) by (destruct Hc as [->|[->|[->| ->]]]; reflexivity).
  cbn [unesc_aux]. rewrite Ha, (IH H). reflexivity.
Qed.
Lemma waits_open : forall p, waits p -> exists t, blank t /\ pstep p "<" = loaded (rest p) MTagOpen t.
Proof.
  intros p (A & B & C & D & F). exists (p_buf p +++ p_raw p). split; [apply blank_app; assumption|].
  unfold pstep. change (illegal_char "<") with false. cbv iota. rewrite A. change (Ascii.eqb "<" "<") with true. cbv iota.
  unfold end_raw. rewrite (blank_unesc _ C), F, (blank_nonws _ C). unfold loaded, rest.
  cbn [p_out p_stack p_names p_nss p_seen]. rewrite nonws_app, (blank_nonws _ C), (blank_nonws _ D). reflexivity.
Qed.
Lemma waits_loaded : forall p t, p_stack p = [] -> blank t -> waits (loaded (rest p) MContent t).
Proof. intros p t Hs Ht. repeat split; try assumption; [constructor|exact (blank_nonws t Ht)]. Qed.
Lemma rest_like : forall p p', like p p' -> waits p' -> waits p /\ like (rest p) (rest p').
Proof.
  intros p p' [H|[(m & _ & Hm) _]] (A & B & C & D & F); [|rewrite A in Hm; discriminate Hm].
  destruct H as (H1 & H2 & H3 & H4 & H5 & H6 & H7 & H8 & H9). rewrite A in H1. split.
  - split; [inversion H1; reflexivity|]. unfold waits; rewrite H3, H6, H7, H8. repeat split; assumption.
  - left. unfold rest. repeat split; cbn [p_mode p_out p_stack p_names p_nss p_raw p_buf p_nonws p_seen]; try assumption. apply ml_same.
Qed.
Lemma waits_rest : forall p, p_stack p = [] -> waits (rest p).
Proof. intros p H. repeat split; try assumption; constructor. Qed.
Lemma rest_rest : forall p, rest (rest p) = rest p. Proof. reflexivity. Qed.
Lemma misc_run : forall s, misc s -> forall p, waits p -> waits (prun p s) /\ like (rest (prun p s)) (rest p).
Proof.
  intros s H. induction H as [|w s Hw H IH|c s Hc H IH|pr s Hp H IH]; intros p Hx.
  - split; [exact Hx|apply like_refl].
  - rewrite prun_app. assert (Hw' : waits (prun p w) /\ rest (prun p w) = rest p).
    { destruct Hx as (A & B & C & D & F). rewrite (ws_run_content w p A (blank_ws w Hw)).
      split; [|reflexivity]. repeat split; try assumption. apply blank_app; assumption. }
    destruct Hw' as [Hw' He]. rewrite <- He. apply IH, Hw'.
  - destruct (waits_open p Hx) as (t & Ht & Ho). destruct (comment_open (rest p) t c Hc) as (r & -> & Hr).
    rewrite sapp_cons. cbn [prun]. rewrite Ho, prun_app, Hr.
    destruct Hx as (A & B & _). destruct (IH _ (waits_loaded p t B Ht)) as [H1 H2]. split; [exact H1|exact H2].
  - destruct (waits_open p Hx) as (t & Ht & Ho).
    destruct (pi_open (rest p) t [] pr (rest_calm p) (tn_none t Ht) (fun _ => eq_refl) Hp) as (r & -> & Hr).
    rewrite sapp_cons. cbn [prun]. rewrite Ho, prun_app. cbn [absorbs] in Hr.
    destruct Hx as (A & B & _). destruct (rest_like _ _ Hr (waits_rest p B)) as [H1 H2].
    destruct (IH _ H1) as [H3 H4]. split; [exact H3|]. eapply like_trans; [exact H4|]. exact H2.
Qed.

(** The XML declaration. *)
Definition unmarked (c : ascii) : Prop := legal_char c /\ c <> "?"%char.
Lemma unmarked_query : forall d, every unmarked d -> legal d = true /\ contains "?>" d = false.
Proof.
  intros d H. split.
  - apply legal_all. induction d as [|c d IH]; [constructor|]. apply every_cons in H. apply every_cons.
    split; [exact (proj1 (proj1 H))|exact (IH (proj2 H))].
  - induction d as [|c d IH]; [reflexivity|]. apply every_cons in H. cbn [contains]. rewrite (IH (proj2 H)).
    cbn [String.prefix]. destruct (ascii_dec "?" c) as [E|_]; [|reflexivity]. destruct (proj2 (proj1 H) (eq_sym E)).
Qed.
Lemma blank_unmarked : forall w, blank w -> every unmarked w.
Proof.
  induction w as [|c w IH]; intros H; [constructor|]. apply every_cons in H. apply every_cons. split; [|exact (IH (proj2 H))].
  split; [left; exact (proj1 H)|]. intros ->. destruct H as [[E|[E|[E|E]]] _]; discriminate E.
Qed.
Definition unmarkedb (c : ascii) : bool := (Nat.leb 32 (nat_of_ascii c) && negb (Ascii.eqb c "?"))%bool.
Lemma literal_unmarked : forall s, all_chars unmarkedb s = true -> every unmarked s.
Proof.
  induction s as [|c s IH]; intros H; [constructor|]. cbn [all_chars] in H. apply andb_prop in H. destruct H as [Hc H].
  apply every_cons. split; [|exact (IH H)]. unfold unmarkedb in Hc. apply andb_prop in Hc. destruct Hc as [H1 H2].
  split; [right; apply Nat.leb_le; exact H1|]. intros ->. discriminate H2.
Qed.
Lemma pseudo_unmarked : forall k vs s, all_chars unmarkedb k = true -> forallb (all_chars unmarkedb) vs = true ->
  pseudo k vs s -> every unmarked s.
Proof.
  intros k vs s Hk Hvs (w1 & w2 & w3 & q & v & [H1 _] & H2 & H3 & Hq & Hv & ->).
  rewrite forallb_forall in Hvs. pose proof (literal_unmarked v (Hvs v Hv)) as Hv'.
  assert (Hq' : every unmarked (String q "")) by (destruct Hq as [->| ->]; apply literal_unmarked; reflexivity).
  assert (Hs : every unmarked (String q (v +++ String q ""))).
  { apply every_cons. split; [apply every_cons in Hq'; exact (proj1 Hq')|]. apply every_app. split; assumption. }
  apply every_app; split; [exact (blank_unmarked w1 H1)|]. apply every_app; split; [exact (literal_unmarked k Hk)|].
  apply every_app; split; [exact (blank_unmarked w2 H2)|]. apply every_app; split; [apply literal_unmarked; reflexivity|].
  apply every_app; split; [exact (blank_unmarked w3 H3)|exact Hs].
Qed.
Lemma declaration_run : forall s, declaration s -> waits (prun p0 s) /\ like (rest (prun p0 s)) p0.
Proof.
  intros s [->|(v & e & a & w & Hv & He & Ha & Hw & ->)].
  - split; [|apply like_refl]. repeat split; constructor.
  - set (d := "xml" +++ v +++ e +++ a +++ w).
    replace ("<?xml" +++ v +++ e +++ a +++ w +++ "?>") with ("<?" +++ d +++ "?>")
      by (unfold d; rewrite !sapp_assoc; reflexivity).
    rewrite prun_app. change (prun p0 "<?") with (set_mode p0 (MPI "")).
    assert (Hd : every unmarked d).
    { unfold d. repeat (apply every_app; split).
      - apply literal_unmarked; reflexivity.
      - exact (pseudo_unmarked "version" ["1.0"] v eq_refl eq_refl Hv).
      - destruct He as [->|He]; [constructor|exact (pseudo_unmarked "encoding" ["UTF-8"; "utf-8"] e eq_refl eq_refl He)].
      - destruct Ha as [->|Ha]; [constructor|exact (pseudo_unmarked "standalone" ["yes"; "no"] a eq_refl eq_refl Ha)].
      - apply blank_unmarked, Hw. }
    assert (Hk : pi_kind (d +++ "?>") = Some true).
    { unfold d. destruct Hv as (w1 & w2 & w3 & q & u & [Hw1 Hne] & _ & _ & _ & _ & ->). destruct w1 as [|c w1]; [contradiction|].
      cbn [String.append]. inversion Hw1 as [|? ? Hwc _]; subst. destruct Hwc as [->|[->|[->| ->]]]; reflexivity. }
    destruct (unmarked_query d Hd) as [Hl Hc]. pose proof (pi_body p0 d Hl Hc (or_intror (conj Hk eq_refl))) as Hp.
    change (set_mode p0 MContent) with p0 in Hp.
    apply rest_like; [exact Hp|]. repeat split; constructor.
Qed.

(** Nothing in a document type declaration ends it early. *)
Definition inert (c : ascii) : Prop := illegal_char c = false /\ Ascii.eqb c ">" = false.
Lemma legal_inert : forall c, legal_char c -> c <> ">"%char -> inert c.
Proof. intros c H Hn. split; [apply legal_ok; exact H|apply Ascii.eqb_neq; exact Hn]. Qed.
Lemma blank_inert : forall w, blank w -> every inert w.
Proof.
  intros w H. unfold every, blank in *. eapply Forall_impl; [|exact H]. intros c [->|[->|[->| ->]]]; split; reflexivity.
Qed.
Lemma name_char_inert : forall c, is_name_char c = true -> inert c.
Proof. intros [[] [] [] [] [] [] [] []] H; (split; reflexivity) || discriminate H. Qed.
Lemma qualified_inert : forall n, qualified n -> every inert n.
Proof.
  assert (Hn : forall s, ncname s -> every inert s).
  { intros s H. apply ncname_all in H. induction s as [|c s IH]; [constructor|]. cbn [all_chars] in H. apply Bool.andb_true_iff in H. destruct H as [Hc H].
    apply every_cons. split; [apply name_char_inert; exact Hc|exact (IH H)]. }
  intros n [H|(p & l & Hp & Hl & ->)]; [exact (Hn n H)|]. apply every_app. split; [exact (Hn p Hp)|]. apply every_app. split; [|exact (Hn l Hl)].
  apply every_cons. split; [split; reflexivity|constructor].
Qed.
Lemma literal_inert : forall s, literal s -> every inert s.
Proof.
  intros s (q & v & Hq & Hv & ->). assert (Hi : inert q) by (destruct Hq as [-> | ->]; split; reflexivity).
  apply every_cons. split; [exact Hi|]. apply every_app. split; [|apply every_cons; split; [exact Hi|constructor]].
  unfold every in *. eapply Forall_impl; [|exact Hv]. intros c (Hl & _ & Hn). exact (legal_inert c Hl Hn).
Qed.
Lemma external_inert : forall s, external_id s -> every inert s.
Proof.
  assert (Hk : every inert "SYSTEM" /\ every inert "PUBLIC") by (split; repeat (apply every_cons; split; [split; reflexivity|]); constructor).
  intros s [(w & l & [Hw _] & Hl & ->)|(w & l & w' & l' & [Hw _] & Hl & [Hw' _] & Hl' & ->)].
  - apply every_app. split; [exact (proj1 Hk)|]. apply every_app. split; [apply blank_inert; exact Hw|apply literal_inert; exact Hl].
  - apply every_app. split; [exact (proj2 Hk)|]. apply every_app. split; [apply blank_inert; exact Hw|].
    apply every_app. split; [apply literal_inert; exact Hl|]. apply every_app. split; [apply blank_inert; exact Hw'|apply literal_inert; exact Hl'].
Qed.

Lemma like_unseen : forall p, like (rest p) p0 -> p_seen p = false.
Proof. intros p [(_ & _ & _ & _ & _ & _ & _ & _ & H)|[(m & H & _) _]]; [exact H|discriminate H]. Qed.
Lemma doctype_run : forall s, doctype s -> forall p, waits p -> p_seen p = false -> waits (prun p s) /\ like (rest (prun p s)) (rest p).
Proof.
  intros s [->|(w & n & e & w' & m & [Hw _] & Hn & He & Hw' & Hm & ->)] p Hp Hseen; [split; [exact Hp|apply like_refl]|].
  assert (Hd : every inert (w +++ n +++ e +++ w')).
  { apply every_app. split; [apply blank_inert; exact Hw|]. apply every_app. split; [apply qualified_inert; exact Hn|].
    apply every_app. split; [|apply blank_inert; exact Hw']. destruct He as [->|(w1 & i & [Hw1 _] & Hi & ->)]; [constructor|].
    apply every_app. split; [apply blank_inert; exact Hw1|apply external_inert; exact Hi]. }
  clear Hw Hn He Hw'. revert Hd. generalize (w +++ n +++ e +++ w'). intros d Hd.
  destruct (waits_open p Hp) as (t & Ht & Ho).
  change ("<!DOCTYPE" +++ d +++ ">" +++ m) with (String "<" ("!DOCTYPE" +++ d +++ ">" +++ m)). cbn [prun]. rewrite Ho.
  rewrite prun_app.
  change (prun (loaded (rest p) MTagOpen t) "!DOCTYPE")
    with (if p_seen p then pfail (loaded (rest p) (MBang "DOCTYP") t) "Unexpected token: <!DOCTYPE" else set_mode (loaded (rest p) MTagOpen t) MDoctype).
  rewrite Hseen.
  rewrite prun_app.
  assert (Hr : prun (set_mode (loaded (rest p) MTagOpen t) MDoctype) d = set_mode (loaded (rest p) MTagOpen t) MDoctype).
  { clear -Hd. revert Hd. generalize (loaded (rest p) MTagOpen t). intros z. induction d as [|c d IH]; intros H; [reflexivity|].
    apply every_cons in H. destruct H as [[Hl Hn] H]. cbn [prun]. unfold pstep. rewrite Hl. cbn [p_mode set_mode].
    rewrite Hn. exact (IH H). }
  rewrite Hr, prun_app. change (prun (set_mode (loaded (rest p) MTagOpen t) MDoctype) ">") with (loaded (rest p) MContent t).
  destruct Hp as (A & B & _). exact (misc_run m Hm _ (waits_loaded p t B Ht)).
Qed.

(** ** Documents *)
Lemma waits_finish : forall p, waits p -> pfinish p = pfinish (rest p).
Proof.
  intros p (A & B & C & D & F). unfold pfinish at 1. rewrite A. unfold end_raw. rewrite (blank_unesc _ C), F, (blank_nonws _ C), B.
  unfold pfinish, rest. cbn. rewrite B. reflexivity.
Qed.
Lemma document_run : forall t s, xml_document t s ->
  strip (s_evs (parse_text s)) = strip (s_evs (pfinish (absorb t p0))) /\
  s_fin (parse_text s) = s_fin (pfinish (absorb t p0)).
Proof.
  intros t s (d & m1 & y & e & m2 & Hd & H1 & Hy & He & H2 & ->). unfold parse_text.
  rewrite prun_app. destruct (declaration_run d Hd) as [Wd Ld].
  rewrite prun_app. destruct (misc_run m1 H1 _ Wd) as [W1 L1].
  rewrite prun_app. destruct (doctype_run y Hy _ W1 (like_unseen _ (like_trans _ _ _ L1 Ld))) as [Wy Ly].
  set (p := prun (prun (prun p0 d) m1) y) in *.
  assert (Lp : like (rest p) p0) by (eapply like_trans; [exact Ly|eapply like_trans; [exact L1|exact Ld]]).
  destruct (proj1 tree_ok t e He) as (r & -> & Hr).
  rewrite sapp_cons. cbn [prun]. destruct (waits_open p Wy) as (b & Hb & Ho). rewrite Ho, prun_app.
  pose proof (Hr p0 b [] ltac:(repeat split) (tn_none b Hb) (fun _ => eq_refl)) as Hr0. cbn [absorbs] in Hr0.
  assert (Lr : like (prun (loaded (rest p) MTagOpen b) r) (absorb t p0)).
  { eapply like_trans; [|exact Hr0]. apply like_run. left.
    destruct Lp as [(_ & L2 & L3 & L4 & L5 & _ & _ & _ & L9)|[(m & _ & Hm) _]]; [|discriminate Hm].
    unfold loaded. repeat split; cbn; try assumption. apply ml_same. }
  set (p1 := prun (loaded (rest p) MTagOpen b) r) in *.
  destruct (absorb_settled t p0 ltac:(repeat split)) as [Hf|[Hc Hv]].
  - eapply like_finish. eapply like_trans; [apply like_run, Lr|]. rewrite (failed_run _ _ Hf). apply like_refl.
  - assert (Hw : waits (absorb t p0)).
    { destruct Hc as (A & B & C & D), Hv as (V & _). repeat split; [exact A|rewrite <- V; reflexivity|rewrite B; constructor|rewrite C; constructor|exact D]. }
    destruct (rest_like _ _ Lr Hw) as [W L].
    destruct (misc_run m2 H2 _ W) as [W' L']. rewrite (waits_finish _ W'), (waits_finish _ Hw).
    apply like_finish. eapply like_trans; [exact L'|exact L].
Qed.
