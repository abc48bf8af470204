(** * [split_ws] finds the white-space separated words (C40). *)
From Verif Require Import Str Num Xml XmlText Reader Schema De SpecStruct.
Open Scope list_scope.

Lemma app_str_assoc : forall a b c, (a +++ b) +++ c = a +++ (b +++ c).
Proof. induction a as [|x a IH]; intros b c; cbn [append]; [reflexivity|]. f_equal. apply IH. Qed.
Lemma append_cancel : forall a b c, a +++ b = a +++ c -> b = c.
Proof. induction a as [|x a IH]; intros b c H; [exact H|]. cbn [append] in H. inversion H. apply IH. assumption. Qed.
Lemma app_str_nil : forall a, a +++ "" = a.
Proof. induction a as [|x a IH]; cbn [append]; [reflexivity|]. f_equal. exact IH. Qed.

(** ** White-space characters *)
Lemma ws_points : unicode_ws = map utf8 blank_points.
Proof. vm_compute. reflexivity. Qed.

Lemma prefix_app : forall w s, String.prefix w s = true <-> exists r, s = w +++ r.
Proof.
  induction w as [|c w IH]; intros s.
  { destruct s; (split; [intros _; eexists; reflexivity|reflexivity]). }
  destruct s as [|d s]; cbn [String.prefix append]; [split; [discriminate|intros (r & H); discriminate]|].
  destruct (ascii_dec c d) as [->|Hn].
  - rewrite IH. split; intros (r & H); exists r; [rewrite H; reflexivity|inversion H; reflexivity].
  - split; [discriminate|]. intros (r & H). inversion H. congruence.
Qed.

(** White-space characters begin with a byte that none of them has further on. *)
Fixpoint bytes (s : string) : list ascii :=
  match s with EmptyString => [] | String c r => c :: bytes r end.
Definition continues (c : ascii) : bool :=
  existsb (fun w => existsb (Ascii.eqb c) (tl (bytes w))) unicode_ws.

Lemma heads_differ :
  forallb (fun w => match w with String c _ => negb (continues c) | "" => false end) unicode_ws = true.
Proof. vm_compute. reflexivity. Qed.

Lemma ws_head : forall w, In w unicode_ws -> exists c r, w = String c r /\ continues c = false.
Proof.
  intros w H. pose proof heads_differ as Hh. rewrite forallb_forall in Hh. specialize (Hh w H).
  destruct w as [|c r]; [discriminate|]. exists c, r. split; [reflexivity|]. apply negb_true_iff. exact Hh.
Qed.

Lemma bytes_in : forall a c r, In c (bytes (a +++ String c r)).
Proof. induction a as [|d a IH]; intros c r; cbn [append bytes]; [left; reflexivity|right; apply IH]. Qed.

Lemma ws_inside : forall c0 a c r, In (String c0 (a +++ String c r)) unicode_ws -> continues c = true.
Proof.
  intros c0 a c r H. unfold continues. apply existsb_exists. eexists. split; [exact H|]. cbn [bytes tl].
  apply existsb_exists. exists c. split; [apply bytes_in|apply Ascii.eqb_refl].
Qed.

(** One of two texts with a common continuation is a part of the other. *)
Lemma app_split : forall a b c d, a +++ b = c +++ d ->
  (exists e, a = c +++ e) \/ (exists e f, c = a +++ String e f).
Proof.
  induction a as [|x a IH]; intros b c d H; cbn [append] in H.
  - destruct c as [|y c]; [left; exists ""; reflexivity|]. right. exists y, c. reflexivity.
  - destruct c as [|y c]; [left; eexists; reflexivity|]. cbn [append] in H. inversion H; subst.
    destruct (IH _ _ _ H2) as [(e & ->)|(e & f & ->)]; [left; exists e; reflexivity|right; exists e, f; reflexivity].
Qed.

Lemma ws_len_none : forall s, (forall w, In w unicode_ws -> ~ exists r, s = w +++ r) -> ws_len s = 0.
Proof.
  intros s H. unfold ws_len. destruct (find (fun w => String.prefix w s) unicode_ws) as [w|] eqn:Hf; [|reflexivity].
  apply find_some in Hf. destruct Hf as [Hi Hp]. apply prefix_app in Hp. exfalso. apply (H w Hi). exact Hp.
Qed.

(** At the beginning of a text there is at most one white-space character. *)
Lemma ws_len_some : forall w s, In w unicode_ws -> ws_len (w +++ s) = String.length w.
Proof.
  intros w s Hw. unfold ws_len.
  destruct (find (fun v => String.prefix v (w +++ s)) unicode_ws) as [v|] eqn:Hf.
  - apply find_some in Hf. destruct Hf as [Hi Hp]. apply prefix_app in Hp. destruct Hp as (r & Hp).
    assert (Hs : forall a e f, In a unicode_ws -> In (a +++ String e f) unicode_ws -> False).
    { clear. intros a e f H1 H2.
      assert (Hc : forallb (fun a => forallb (fun b => (String.eqb a b || negb (String.prefix a b))%bool) unicode_ws) unicode_ws = true)
        by (vm_compute; reflexivity).
      rewrite forallb_forall in Hc. specialize (Hc a H1). rewrite forallb_forall in Hc. specialize (Hc _ H2).
      apply orb_true_iff in Hc. destruct Hc as [Hc|Hc].
      - apply String.eqb_eq in Hc. assert (Hl : String.length a = String.length (a +++ String e f)) by (rewrite <- Hc; reflexivity).
        revert Hl. clear. induction a as [|x a IH]; cbn; [discriminate|]. intros H. inversion H. apply IH. assumption.
      - apply negb_true_iff in Hc. assert (Ht : String.prefix a (a +++ String e f) = true) by (apply prefix_app; eexists; reflexivity).
        congruence. }
    destruct (app_split _ _ _ _ Hp) as [([|e f] & He)|(e & f & He)].
    + rewrite app_str_nil in He. subst. reflexivity.
    + subst w. destruct (Hs _ _ _ Hi Hw).
    + subst v. destruct (Hs _ _ _ Hw Hi).
  - exfalso. apply (find_none _ _ Hf) in Hw. assert (Ht : String.prefix w (w +++ s) = true) by (apply prefix_app; eexists; reflexivity).
    congruence.
Qed.

(** ** Splitting *)
Lemma split_skip : forall w cur s, split_ws_aux (String.length w) cur (w +++ s) = split_ws_aux 0 cur s.
Proof. induction w as [|c w IH]; intros cur s; [reflexivity|]. cbn [append String.length split_ws_aux]. apply IH. Qed.

Lemma split_ws_char : forall w cur s, In w unicode_ws ->
  split_ws_aux 0 cur (w +++ s) = if is_empty cur then split_ws_aux 0 "" s else cur :: split_ws_aux 0 "" s.
Proof.
  intros w cur s Hw. destruct (ws_head w Hw) as (c & r & -> & _). cbn [append].
  assert (Hl : ws_len (String c (r +++ s)) = S (String.length r)) by (apply (ws_len_some (String c r) s); exact Hw).
  cbn [split_ws_aux]. rewrite Hl, split_skip. reflexivity.
Qed.

Lemma split_blanks : forall w s, blanks w -> split_ws_aux 0 "" (w +++ s) = split_ws_aux 0 "" s.
Proof.
  intros w s H. induction H as [|n w Hn H IH]; [reflexivity|].
  rewrite app_str_assoc, split_ws_char; [exact IH|]. rewrite ws_points. apply in_map. exact Hn.
Qed.

Lemma split_word_chars : forall t cur s, (forall a b, t = a +++ b -> ~ begins_blank b) -> (s = "" \/ begins_blank s) ->
  split_ws_aux 0 cur (t +++ s) = split_ws_aux 0 (cur +++ t) s.
Proof.
  induction t as [|c t IH]; intros cur s H Hs; [rewrite app_str_nil; reflexivity|].
  assert (Hl : ws_len (String c t +++ s) = 0).
  { apply ws_len_none. intros w Hw (r & Hr). pose proof Hw as Hp. rewrite ws_points in Hp. apply in_map_iff in Hp.
    destruct Hp as (n & <- & Hn). destruct (app_split _ _ _ _ Hr) as [(e & He)|(e & f & He)].
    - apply (H "" (String c t) eq_refl). exists n, e. split; assumption.
    - cbn [append] in He. rewrite He in Hw. pose proof (ws_inside _ _ _ _ Hw) as Hc.
      rewrite He in Hr. cbn [append] in Hr. inversion Hr as [Hr']. rewrite app_str_assoc in Hr'. apply append_cancel in Hr'.
      destruct Hs as [->|(m & q & Hm & ->)]; [discriminate|].
      assert (Hi : In (utf8 m) unicode_ws) by (rewrite ws_points; apply in_map; exact Hm).
      destruct (ws_head _ Hi) as (c' & r' & Hu & Hc'). rewrite Hu in Hr'. cbn [append] in Hr'. inversion Hr'. congruence. }
  cbn [append] in *. cbn [split_ws_aux]. rewrite Hl, IH; [rewrite app_str_assoc; reflexivity| |exact Hs].
  intros a b He. apply (H (String c a) b). rewrite He. reflexivity.
Qed.

Lemma split_separated : forall s l, separated s l -> split_ws s = l.
Proof.
  unfold split_ws. intros s l H. induction H as [w Hw|w t s l Hw [Hne Ht] Hs H IH].
  - rewrite <- (app_str_nil w), split_blanks by exact Hw. reflexivity.
  - rewrite split_blanks by exact Hw. rewrite split_word_chars by assumption. cbn [append].
    assert (He : is_empty t = false) by (destruct t; [congruence|reflexivity]).
    destruct Hs as [->|(n & r & Hn & ->)].
    + cbn [split_ws_aux]. rewrite He. cbn [split_ws_aux is_empty] in IH. rewrite <- IH. reflexivity.
    + assert (Hi : In (utf8 n) unicode_ws) by (rewrite ws_points; apply in_map; exact Hn).
      rewrite split_ws_char in IH |- * by exact Hi. rewrite He. cbn [is_empty] in IH. rewrite IH. reflexivity.
Qed.

(** ** Checking words *)
Fixpoint unspaced (s : string) : bool :=
  (Nat.eqb (ws_len s) 0 && match s with EmptyString => true | String _ r => unspaced r end)%bool.

Lemma word_check : forall s, (negb (is_empty s) && unspaced s)%bool = true -> word s.
Proof.
  intros s H. apply andb_true_iff in H. destruct H as [H1 H2]. split; [intros ->; discriminate|].
  intros a b -> (n & r & Hn & ->).
  assert (Hi : In (utf8 n) unicode_ws) by (rewrite ws_points; apply in_map; exact Hn).
  clear H1. induction a as [|c a IH]; cbn [append] in H2.
  - destruct (ws_head _ Hi) as (c & q & Hu & _). pose proof (ws_len_some _ r Hi) as Hl. rewrite Hu in *.
    cbn [append unspaced] in *. rewrite Hl in H2. discriminate.
  - cbn [unspaced] in H2. apply andb_true_iff in H2. apply IH, H2.
Qed.
