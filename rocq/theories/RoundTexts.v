(** * Texts that survive writing and reading (round trips). *)
From Verif Require Import Str Num Xml XmlText Reader Schema SpecTree SpecText SpecNum SpecTyped SpecStruct SpecSer SpecValue
  SpecEnc SpecRound TextProofs NumProofs ValueProofs.
Open Scope list_scope.

Lemma all_chars_impl : forall (p q : ascii -> bool) s, (forall c, p c = true -> q c = true) ->
  all_chars p s = true -> all_chars q s = true.
Proof.
  intros p q s H. induction s as [|c s IH]; [reflexivity|]. cbn [all_chars]. rewrite !andb_true_iff.
  intros [H1 H2]. split; auto.
Qed.

Lemma trim_end_nows : forall s, all_chars (fun c => negb (is_ws c)) s = true -> trim_end s = s.
Proof.
  induction s as [|c s IH]; [reflexivity|]. cbn [all_chars trim_end]. rewrite andb_true_iff. intros [H1 H2].
  rewrite IH by exact H2. destruct s; [|reflexivity]. apply negb_true_iff in H1. rewrite H1. reflexivity.
Qed.
Lemma trim_nows : forall s, all_chars (fun c => negb (is_ws c)) s = true -> trim s = s.
Proof.
  intros s H. unfold trim. replace (trim_start s) with s; [apply trim_end_nows; exact H|].
  destruct s as [|c s]; [reflexivity|]. cbn [all_chars trim_start] in *. apply andb_true_iff in H. destruct H as [H _].
  apply negb_true_iff in H. rewrite H. reflexivity.
Qed.

(** Names, numbers and the like. *)
Lemma token_text : forall s, s <> "" -> all_chars is_name_char s = true -> attr_text s.
Proof.
  intros s Hn H. repeat split.
  - apply (all_chars_impl is_name_char); [|exact H]. intros c Hc. rewrite (name_char_legal c Hc). reflexivity.
  - destruct s as [|c s]; [congruence|]. unfold str_nonws. cbn [all_chars] in *. apply andb_true_iff in H.
    rewrite (name_char_ws c) by apply H. reflexivity.
  - apply trim_nows. apply (all_chars_impl is_name_char); [|exact H]. intros c Hc. rewrite (name_char_ws c Hc). reflexivity.
  - unfold legal_attr. rewrite andb_true_iff. split.
    + apply (all_chars_impl is_name_char); [|exact H]. intros c Hc. rewrite (name_char_legal c Hc). reflexivity.
    + apply (all_chars_impl is_name_char); [|exact H]. intros c; by_char c.
Qed.
Lemma identifier_token : forall s, identifier s -> attr_text s.
Proof.
  intros s [H _]. apply token_text; [intros ->; discriminate|]. apply xml_name_chars. exact H.
Qed.

Lemma decimal_name : forall s z, decimal s z -> s <> "" /\ all_chars is_name_char s = true.
Proof.
  assert (Hd : forall d, d < 10 -> all_chars is_name_char (digit d) = true).
  { intros d H. do 10 (destruct d as [|d]; [vm_compute; reflexivity|]). lia. }
  intros s z H. induction H as [d Hlt|s z d H [IH1 IH2] Hlt].
  - split; [discriminate|]. apply Hd. exact Hlt.
  - split; [destruct s; [congruence|discriminate]|]. rewrite all_chars_app, IH2, Hd by exact Hlt. reflexivity.
Qed.
Lemma show_Z_token : forall z, attr_text (show_Z z).
Proof.
  intros z. apply token_text; [apply show_Z_chars|]. destruct z as [|p|p]; [reflexivity| |].
  - apply (decimal_name _ _ (show_N_decimal (Npos p))).
  - cbn [show_Z all_chars]. rewrite (proj2 (decimal_name _ _ (show_N_decimal (Npos p)))). reflexivity.
Qed.
Lemma show_bool_token : forall b, attr_text (show_bool b).
Proof. intros []; apply token_text; try discriminate; reflexivity. Qed.

(** Simple values: the written text has property [ok] and is parsed back. *)
Lemma leaf_text : forall x (ok : string -> Prop) s v t, (forall u, attr_text u -> ok u) -> leaf_survives x ok s v ->
  show_simple x s v = Some t -> ok t /\ parse_simple x s t = Ok v /\ visit_simple x s t = Ok v.
Proof.
  intros x ok s v t Hok H Hs. unfold visit_simple.
  destruct s as [| |i|d], v; cbn [leaf_survives show_simple] in *; try tauto; injection Hs as <-.
  - repeat split; try reflexivity; exact H.
  - split; [apply Hok, show_bool_token|]. destruct b; split; reflexivity.
  - split; [apply Hok, show_Z_token|]. cbn [parse_simple]. rewrite C07_lemma by exact H. split; reflexivity.
  - destruct H as [H1 H2]. split; [exact H1|]. cbn [parse_simple]. rewrite H2. split; reflexivity.
Qed.
Lemma leaf_shown : forall x ok s v, leaf_survives x ok s v -> exists t, show_simple x s v = Some t.
Proof. intros x ok s v H. destruct s, v; cbn in H; try tauto; eexists; reflexivity. Qed.

Lemma clean_node : forall t, clean t -> text_node t = [Txt t].
Proof. intros t (_ & H1 & H2). unfold text_node. rewrite H1, H2. reflexivity. Qed.
Lemma clean_nonempty : forall t, clean t -> t <> "".
Proof. intros t (_ & H & _) ->. discriminate. Qed.
Lemma empty_node : text_node "" = [].
Proof. reflexivity. Qed.

(** The text of the single child, or nothing. *)
Definition content_of (kids : list node) : string := match kids with [Txt s] => s | _ => "" end.

Lemma hex_small : forall z, (0 <= z <= 9)%Z -> exists t, show_hex (Z.to_N z) = t /\ attr_text t /\
  forall i, parse_int i t = Ok z.
Proof.
  intros z Hz. assert (Hc : (z = 0 \/ z = 1 \/ z = 2 \/ z = 3 \/ z = 4 \/ z = 5 \/ z = 6 \/ z = 7 \/ z = 8 \/ z = 9)%Z) by lia.
  repeat (destruct Hc as [->|Hc]; [eexists; split; [vm_compute; reflexivity|]; split;
    [apply token_text; [discriminate|reflexivity]|intros []; vm_compute; reflexivity]|]).
  subst z. eexists; split; [vm_compute; reflexivity|]; split;
    [apply token_text; [discriminate|reflexivity]|intros []; vm_compute; reflexivity].
Qed.

Lemma prim_text : forall x (ok : string -> Prop) tn k v t, (forall u, attr_text u -> ok u) -> prim_survives x ok tn k v ->
  show_prim x tn k v = Some t -> (ok t \/ t = "") /\ parse_prim x tn k t = Ok v.
Proof.
  intros x ok tn k v t Hok H Hs. destruct k as [s|i m|]; cbn [prim_survives show_prim parse_prim] in *.
  - destruct H as [H|[-> ->]].
    + destruct (leaf_text x ok s v t Hok H Hs) as (H1 & H2 & _). auto.
    + injection Hs as <-. auto.
  - destruct v; try tauto. injection Hs as <-. destruct H as [Hz Hm].
    rewrite Z.mod_small by (destruct i; cbn; lia).
    destruct (hex_small z Hz) as (u & Hu & Ha & Hp). rewrite Hu, Hp. split; [left; apply Hok; exact Ha|].
    rewrite Hm, Z.eqb_refl. reflexivity.
  - destruct v; try tauto. injection Hs as <-. destruct H as [H1 H2]. rewrite H2. auto.
Qed.
Lemma prim_shown : forall x ok tn k v, prim_survives x ok tn k v -> exists t, show_prim x tn k v = Some t.
Proof.
  intros x ok tn k v H. destruct k; cbn in *.
  - destruct H as [H|[-> ->]]; [eapply leaf_shown; eassumption|eexists; reflexivity].
  - destruct v; try tauto; eexists; reflexivity.
  - destruct v; try tauto; eexists; reflexivity.
Qed.
