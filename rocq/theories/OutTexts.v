(** * String contents in written documents. *)
From Verif Require Import Str Num Xml XmlText Reader Schema De Ser SpecTree SpecText SpecNum SpecTyped SpecStruct SpecSer SpecValue SpecEnc
  TextProofs EncProofs SerProofs SpecRound RoundNames RoundTexts RoundFields SpecOut OutProofs.
Open Scope list_scope.

(** ** Legal texts *)
Lemma legal_sapp : forall a b, legal (a +++ b) = (legal a && legal b)%bool.
Proof. intros a b. unfold legal. apply all_chars_app. Qed.
Lemma legal_esc_pcdata : forall t, legal t = true -> legal (esc_pcdata t) = true.
Proof.
  unfold legal. induction t as [|c r IH]; intros H; [reflexivity|]. cbn [all_chars] in H. apply andb_prop in H. destruct H as [H1 H2].
  cbn [esc_pcdata]. rewrite all_chars_app, (IH H2), andb_true_r. unfold esc_pcdata_char.
  repeat match goal with |- context [if ?b then _ else _] => destruct b end; try reflexivity.
  cbn [all_chars]. rewrite H1. reflexivity.
Qed.
Lemma name_legal : forall s, all_chars is_name_char s = true -> legal s = true.
Proof.
  unfold legal. induction s as [|c r IH]; intros H; [reflexivity|]. cbn [all_chars] in *. apply andb_prop in H. destruct H as [H1 H2].
  rewrite (name_char_legal c H1), IH by exact H2. reflexivity.
Qed.
Lemma ident_legal : forall s, identifier s -> legal s = true.
Proof.
  intros s H. apply name_legal. destruct H as [H _]. destruct s as [|c r]; [reflexivity|]. cbn [xml_name] in H. apply andb_prop in H.
  destruct H as [H1 H2]. cbn [all_chars]. rewrite H2. rewrite (name_start_char c H1). reflexivity.
Qed.
Lemma hex_legal : forall d, (d < 16)%N -> illegal_char (hex_digit d) = false.
Proof.
  intros d Hd. assert (H : In d [0;1;2;3;4;5;6;7;8;9;10;11;12;13;14;15]%N).
  { destruct d as [|p]; [left; reflexivity|]. do 5 (destruct p as [p|p|]; cbn; try lia; try tauto). }
  cbn [In] in H. repeat (destruct H as [<-|H]; [reflexivity|]). destruct H.
Qed.
Lemma hex_digits_legal : forall fuel n acc, legal acc = true -> legal (hex_digits fuel n acc) = true.
Proof.
  induction fuel as [|f IH]; intros n acc H; [exact H|]. cbn [hex_digits].
  assert (Hc : legal (String (hex_digit (n mod 16)) acc) = true).
  { unfold legal in *. cbn [all_chars]. rewrite hex_legal; [exact H|]. apply N.mod_lt. discriminate. }
  destruct (N.eqb (n / 16) 0); [exact Hc|apply IH; exact Hc].
Qed.
Lemma show_hex_legal : forall n, legal (show_hex n) = true.
Proof.
  intros n. unfold show_hex. pose proof (hex_digits_legal (S (N.size_nat n)) n "" eq_refl) as H.
  destruct (Nat.ltb _ _); [|exact H]. unfold legal in *. cbn [all_chars]. rewrite H. reflexivity.
Qed.

Definition strings_legal (v : value) : Prop := forall s, InValue s v -> legal s = true.

Lemma show_simple_legal : forall x s v t, shows_legal x -> strings_legal v -> show_simple x s v = Some t -> legal t = true.
Proof.
  intros x s v t [Hf _] Hs H. destruct s, v; try discriminate; cbn [show_simple] in H; injection H as <-.
  - apply Hs. constructor.
  - destruct b; reflexivity.
  - destruct (show_Z_token z) as [_ Hz]. unfold legal_attr in Hz. apply andb_prop in Hz. apply Hz.
  - apply Hf.
Qed.
Lemma show_prim_legal : forall x n k v t, shows_legal x -> strings_legal v -> show_prim x n k v = Some t -> legal t = true.
Proof.
  intros x n k v t Hx Hs H. destruct k as [s|i m|]; cbn [show_prim] in H.
  - eapply show_simple_legal; eauto.
  - destruct v; try discriminate. injection H as <-. apply show_hex_legal.
  - destruct v; try discriminate. injection H as <-. apply (proj2 Hx).
Qed.

Lemma legal_text : forall t, legal t = true -> legal_tree (WTxt t).
Proof. intros t H e [<-|[]]. exact H. Qed.
Lemma legal_elem : forall n a m ks, (forall t, In t a -> legal (at_value t) = true) -> legal_forest ks -> legal_tree (WElem n a m ks).
Proof.
  intros n a m ks Ha Hk e He. cbn [wtree] in He. destruct He as [<-|He]; [exact Ha|]. apply in_app_or in He. destruct He as [He|[<-|[]]]; [|exact I].
  apply in_flat_map in He. destruct He as (w & Hw & He). apply (Hk w Hw). exact He.
Qed.
Lemma legal_one : forall w, legal_tree w -> legal_forest [w].
Proof. intros w H w' [<-|[]]. exact H. Qed.
Lemma legal_nil : legal_forest [].
Proof. intros w []. Qed.
Lemma legal_text_elem : forall q t, legal t = true -> legal_tree (text_elem q t).
Proof. intros q t H. apply legal_elem; [intros ? []|]. apply legal_one, legal_text. exact H. Qed.
Lemma legal_both : forall a b, legal_forest a -> legal_forest b -> legal_forest (a ++ b).
Proof. intros a b Ha Hb w Hw. apply in_app_or in Hw. destruct Hw; auto. Qed.
Lemma legal_concat : forall A (f : A -> option (list wnode)) l ts, oconcat f l = Some ts ->
  (forall a p, In a l -> f a = Some p -> legal_forest p) -> legal_forest ts.
Proof.
  induction l as [|a l IH]; intros ts He Hf; cbn [oconcat] in He; [injection He as <-; apply legal_nil|].
  apply oapp_some in He. destruct He as (p & q & Ha & Hq & ->). apply legal_both; [apply (Hf a); auto; left; reflexivity|].
  apply IH; auto. intros b r Hb. apply Hf. right. exact Hb.
Qed.

Section Legal.
  Variable x : ext.
  Variable E : env.
  Hypothesis Hx : shows_legal x.
  Hypothesis Hp : plain_strings E.
  Notation enc := (encode x E).
  Notation enca := (encode_attrs x E).

  Definition enc_legal (v : value) : Prop := strings_legal v -> forall id h ts, enc id v h = Some ts -> legal_forest ts.
  Definition enca_legal (v : value) : Prop := strings_legal v -> forall id a ns, enca id v = Some (a, ns) ->
    forall t, In t a -> legal (at_value t) = true.

  Variable N : nat.
  Hypothesis IH : forall v, height v < N -> enc_legal v.
  Hypothesis IHa : forall v, height v < N -> enca_legal v.

  Lemma simple_legal : forall q s v ts, strings_legal v -> enc_simple x q s v = Some ts -> legal_forest ts.
  Proof.
    intros q s v ts Hs He. apply omap_some in He. destruct He as (t & Ht & ->). apply legal_one, legal_text_elem.
    eapply show_simple_legal; eauto.
  Qed.
  Lemma sl_opt : forall w, strings_legal (VOpt (Some w)) -> strings_legal w.
  Proof. intros w H s Hs. apply H. constructor. exact Hs. Qed.
  Lemma sl_vec : forall l w, strings_legal (VVec l) -> In w l -> strings_legal w.
  Proof. intros l w H Hw s Hs. apply H. econstructor; eauto. Qed.

  Lemma field_legal : forall ra self f v ts, ya_cdata (f_attrs f) = false -> height v < N -> strings_legal v ->
    enc_field x enc ra self f v = Some ts -> legal_forest ts.
  Proof.
    intros ra self f v ts Hcd Hh Hs He. unfold enc_field in He. rewrite Hcd in He.
    destruct (ya_attribute (f_attrs f)); [injection He as <-; apply legal_nil|].
    destruct (ya_text (f_attrs f)).
    { assert (exists t, ts = [WTxt t] /\ legal t = true) as (t & -> & Ht).
      { destruct (f_ty f) as [[[| | |]|]|[[| | |]|]|b|b]; try discriminate.
        - destruct v; try discriminate. injection He as <-. eexists. split; [reflexivity|]. apply Hs. constructor.
        - destruct v as [| | | | |[[]|]| | |]; try discriminate; injection He as <-; eexists; (split; [reflexivity|]); [|reflexivity].
          apply Hs. repeat constructor. }
      apply legal_one, legal_text. exact Ht. }
    destruct (left_out x self v f true); [injection He as <-; apply legal_nil|].
    destruct (f_ty f) as [[s|id]|[s|id]|[s|id]|[s|id]].
    - eapply simple_legal; eauto.
    - eapply (IH v); eauto.
    - destruct v as [| | | | |[w|]| | |]; try discriminate; [|injection He as <-; apply legal_nil].
      eapply simple_legal; [|exact He]. apply sl_opt. exact Hs.
    - destruct v as [| | | | |[w|]| | |]; try discriminate; [|injection He as <-; apply legal_nil].
      eapply (IH w); [cbn [height] in Hh; lia|apply sl_opt; exact Hs|exact He].
    - destruct v; try discriminate. eapply legal_concat; [exact He|]. intros a p Ha Hpa. eapply simple_legal; [|exact Hpa]. eapply sl_vec; eauto.
    - destruct v; try discriminate. eapply legal_concat; [exact He|]. intros a p Ha Hpa. eapply (IH a); [|eapply sl_vec; eauto|exact Hpa].
      pose proof (height_in a l Ha). cbn [height] in Hh. lia.
    - destruct v as [| | | | |[[| | | | | |l| |]|]| | |]; try discriminate; [|injection He as <-; apply legal_nil].
      eapply legal_concat; [exact He|]. intros a p Ha Hpa. eapply simple_legal; [|exact Hpa]. apply sl_opt in Hs. eapply sl_vec; eauto.
    - destruct v as [| | | | |[[| | | | | |l| |]|]| | |]; discriminate.
  Qed.

  Lemma fields_legal : forall ra self fs vs ts, (forall f, In f fs -> ya_cdata (f_attrs f) = false) ->
    (forall v, In v vs -> height v < N /\ strings_legal v) -> enc_fields x enc ra self fs vs = Some ts -> legal_forest ts.
  Proof.
    intros ra self. induction fs as [|f fs IHf]; intros [|v vs] ts Hc Hv He; try discriminate; cbn [enc_fields] in He.
    - injection He as <-. apply legal_nil.
    - apply oapp_some in He. destruct He as (p & q & Hpa & Hq & ->). destruct (Hv v (or_introl eq_refl)) as [H1 H2].
      apply legal_both; [eapply field_legal; eauto; apply Hc; left; reflexivity|]. apply (IHf vs); auto; intros; [apply Hc|apply Hv]; right; assumption.
  Qed.

  Lemma item_legal : forall b v h ts, height v < N -> strings_legal v -> enc_item x enc b v h = Some ts -> legal_forest ts.
  Proof.
    intros [s|id] v h ts Hh Hs He; cbn [enc_item] in He; [|eapply (IH v); eauto].
    destruct s; try discriminate; apply omap_some in He; destruct He as (tx & Ht & ->); apply legal_one, legal_text; eapply show_simple_legal; eauto.
  Qed.
  Lemma named_legal : forall ra fs vs ts,
    (forall v, In v vs -> height v < N /\ strings_legal v) -> enc_named_fields x enc ra fs vs = Some ts -> legal_forest ts.
  Proof.
    intros ra. induction fs as [|f fs IHf]; intros [|v vs] ts Hv He; try discriminate; cbn [enc_named_fields] in He.
    - injection He as <-. apply legal_nil.
    - apply oapp_some in He. destruct He as (p & q & Hpa & Hq & ->). destruct (Hv v (or_introl eq_refl)) as [H1 H2].
      apply legal_both; [|apply (IHf vs); auto; intros; apply Hv; right; assumption].
      unfold enc_named_field in Hpa. destruct (f_ty f) as [[s|id]|b|b|b].
      + eapply simple_legal; eauto.
      + eapply (IH v); eauto.
      + destruct v; try discriminate. injection Hpa as <-. apply legal_nil.
      + destruct v; try discriminate. eapply legal_concat; [exact Hpa|]. intros a r Ha Hr. eapply item_legal; [|eapply sl_vec; eauto|exact Hr].
        pose proof (height_in a l Ha). cbn [height] in H1. lia.
      + destruct v; try discriminate. injection Hpa as <-. apply legal_nil.
  Qed.
  Lemma payload_item_legal : forall q b v ts, height v < N -> strings_legal v -> enc_payload_item x enc q b v = Some ts -> legal_forest ts.
  Proof.
    intros q b v ts Hh Hs He. apply omap_some in He. destruct He as (ks & He & ->). apply legal_one, legal_elem; [intros ? []|].
    assert (Hor : enc_item x enc b v Inside = Some ks \/ exists t, v = VStr t /\ ks = [WTxt t]).
    { destruct b as [[| | |]|]; auto. destruct v; auto. injection He as <-. right. eauto. }
    destruct Hor as [Hi|(t & -> & ->)]; [eapply item_legal; eauto|]. apply legal_one, legal_text, Hs. constructor.
  Qed.

  Lemma variant_name_legal : forall id td vs d vr, nth_error E id = Some td -> t_body td = DEnum vs d -> In vr vs ->
    legal (variant_name vr) = true /\ legal (variant_qname (t_attrs td) vr) = true.
  Proof.
    intros id td vs d vr Htd Hb Hin. pose proof (Hp id td Htd) as H. rewrite Hb in H. destruct (H vr Hin) as [Hn Hpr].
    split; [exact Hn|]. change (variant_qname (t_attrs td) vr) with (prefix_part (ya_default_namespace (t_attrs td)) (ya_prefix (v_attrs vr)) +++ variant_name vr).
    rewrite legal_sapp, Hn, andb_true_r. unfold prefix_part.
    destruct (opt_eqb _ _); [reflexivity|]. destruct (ya_prefix (v_attrs vr)) as [p|]; [|reflexivity].
    rewrite legal_sapp, (ident_legal p); [reflexivity|]. apply Hpr. reflexivity.
  Qed.

  Lemma content_legal : forall h id td v ts, nth_error E id = Some td -> height v <= N -> strings_legal v ->
    enc_content x enc h td v = Some ts -> legal_forest ts.
  Proof.
    intros h id td v ts Htd Hh Hs He. pose proof (Hp id td Htd) as Ht. unfold enc_content in He.
    destruct (t_body td) as [fs|vs d|k] eqn:Hb; [| |discriminate].
    - destruct v as [| | | | | | |ws|]; try discriminate. eapply fields_legal; [|  |exact He].
      + intros f Hf. apply (Ht f Hf).
      + intros w Hw. split; [pose proof (height_in w ws Hw); cbn [height] in Hh; lia|]. intros s Hsw. apply Hs. econstructor; eauto.
    - destruct v as [| | | | | | | |i ws]; try discriminate. destruct (nth_error vs i) as [vr|] eqn:Hv; [|discriminate].
      assert (Hbelow : forall w, In w ws -> height w < N /\ strings_legal w).
      { intros w Hin. split; [pose proof (height_in w ws Hin); cbn [height] in Hh; lia|]. intros s Hsw. apply Hs. econstructor; eauto. }
      unfold enc_variant in He. destruct (v_body vr) as [|fl t|fs].
      + destruct ws; [|discriminate]. injection He as <-. destruct (ya_tag (t_attrs td)); [apply legal_nil|].
        apply legal_one, legal_text. eapply variant_name_legal; eauto. eapply nth_error_In; eauto.
      + destruct ws as [|w [|]]; try discriminate. destruct (Hbelow w (or_introl eq_refl)) as [H1 H2].
        unfold enc_payload in He. destruct t as [[s|id']|b|b|b].
        * eapply simple_legal; eauto.
        * destruct (ya_flatten (v_attrs vr) || fl)%bool; [eapply (IH w); eauto|eapply payload_item_legal; eauto].
        * destruct w as [| | | | |[w|]| | |]; try discriminate; [|injection He as <-; apply legal_nil].
          eapply payload_item_legal; [|apply sl_opt; exact H2|exact He]. cbn [height] in H1. lia.
        * destruct w; try discriminate. eapply legal_concat; [exact He|]. intros a r Ha Hr.
          eapply payload_item_legal; [|eapply sl_vec; eauto|exact Hr]. pose proof (height_in a l Ha). cbn [height] in H1. lia.
        * discriminate.
      + eapply named_legal; eauto.
  Qed.

  Lemma attr_show_legal : forall b v t, attribute_type E b -> height v < N -> strings_legal v -> attr_show x enc b v = Some t -> legal t = true.
  Proof.
    intros [s|id] v t Ha Hh Hs He; cbn [attr_show] in He; [eapply show_simple_legal; eauto|].
    apply omap_some in He. destruct He as (ts & He & ->).
    assert (Hone : ts = [] \/ exists u, ts = [WTxt u] /\ legal u = true).
    { rewrite encode_eq in He. unfold enc_type in He. destruct (nth_error E id) as [td|] eqn:Htd; [|discriminate].
      specialize (Ha id td eq_refl Htd). destruct (t_body td) as [fs|vs d|k] eqn:Hb; [destruct Ha| |].
      - unfold enc_content in He. rewrite Hb in He. destruct v as [| | | | | | | |i ws]; try discriminate.
        destruct (nth_error vs i) as [vr|] eqn:Hv; [|discriminate]. pose proof (nth_error_In _ _ Hv) as Hin.
        unfold enc_variant in He. rewrite (Ha vr Hin) in He. destruct ws; [|discriminate]. injection He as <-.
        destruct (ya_tag (t_attrs td)); [left; reflexivity|]. right. eexists. split; [reflexivity|]. eapply variant_name_legal; eauto.
      - apply omap_some in He. destruct He as (u & Hu & ->). right. eexists. split; [reflexivity|]. eapply show_prim_legal; eauto. }
    destruct Hone as [->|(u & -> & Hu)]; [reflexivity|]. cbn [flat_map wtree app]. rewrite chars_text. apply legal_esc_pcdata. exact Hu.
  Qed.

  Lemma tag_legal : forall ra self fs vs own child ns,
    (forall f, In f fs -> ya_attribute (f_attrs f) = true -> attribute_type E (base_of (f_ty f))) ->
    (forall v, In v vs -> height v < N /\ strings_legal v) -> enc_tag x enc enca ra self fs vs = Some (own, child, ns) ->
    (forall t, In t (own ++ child) -> legal (at_value t) = true).
  Proof.
    intros ra self. induction fs as [|f fs IHf]; intros [|v vs] own child ns Hf Hv He; try discriminate; cbn [enc_tag] in He.
    - injection He as <- <- <-. intros ? [].
    - destruct (enc_tag x enc enca ra self fs vs) as [[[own' child'] ns']|] eqn:Ht; [|discriminate].
      pose proof (Hf f (or_introl eq_refl)) as Ha. destruct (Hv v (or_introl eq_refl)) as [H1 H2].
      assert (G : forall t, In t (own' ++ child') -> legal (at_value t) = true).
      { apply (IHf vs own' child' ns'); auto; [intros g Hg; apply Hf|intros w Hw; apply Hv]; right; assumption. }
      destruct (ya_attribute (f_attrs f)).
      + apply omap_some in He. destruct He as (a & He & Heq). injection Heq as -> -> ->. rewrite <- app_assoc.
        intros t Hin. apply in_app_or in Hin. destruct Hin as [Hin|Hin]; [|apply G; exact Hin].
        unfold enc_attr in He. specialize (Ha eq_refl).
        destruct (f_ty f) as [b|b|b|b]; [|destruct v as [| | | | |[w|]| | |]; try discriminate..|destruct v; discriminate].
        * apply omap_some in He. destruct He as (u & Hu & ->). destruct (left_out _ _ _ _ _); [destruct Hin|]. destruct Hin as [<-|[]].
          eapply attr_show_legal; eauto.
        * apply omap_some in He. destruct He as (u & Hu & ->). destruct (left_out _ _ _ _ _); [destruct Hin|]. destruct Hin as [<-|[]].
          eapply attr_show_legal; [exact Ha| |apply sl_opt; exact H2|exact Hu]. cbn [height] in H1. lia.
        * injection He as <-. destruct Hin.
        * injection He as <-. destruct Hin.
      + destruct (ya_flatten (f_attrs f)); [|injection He as <- <- <-; exact G].
        destruct (f_ty f) as [[s|id]|b|b|b]; try (injection He as <- <- <-; exact G).
        apply omap_some in He. destruct He as ([ca cn] & He & Heq). injection Heq as -> -> ->.
        intros t Hin. apply in_app_or in Hin. destruct Hin as [Hin|Hin]; [apply G; apply in_or_app; left; exact Hin|].
        apply in_app_or in Hin. destruct Hin as [Hin|Hin]; [|apply G; apply in_or_app; right; exact Hin].
        exact (IHa v H1 H2 id ca cn He t Hin).
  Qed.
  Lemma start_legal : forall id td v own child ns, nth_error E id = Some td -> height v <= N -> strings_legal v ->
    enc_start x enc enca td v = Some (own, child, ns) -> forall t, In t (own ++ child) -> legal (at_value t) = true.
  Proof.
    intros id td v own child ns Htd Hh Hs Hst. pose proof (Hp id td Htd) as Hpt.
    unfold enc_start in Hst. destruct (t_body td) as [fs|vs d|k] eqn:Hb; [| |discriminate].
    - destruct v as [| | | | | | |ws|]; try discriminate.
      eapply tag_legal; [| |exact Hst].
      + intros f Hin. apply (Hpt f Hin).
      + intros w Hin. split; [pose proof (height_in w ws Hin); cbn [height] in Hh; lia|]. intros s Hsw. apply Hs. econstructor; eauto.
    - destruct v as [| | | | | | | |i ws]; try discriminate. apply omap_some in Hst.
      destruct Hst as (vr & Hvr & Heq). injection Heq as -> -> ->. cbn [app].
      intros t Ht. destruct (ya_tag (t_attrs td)); [|destruct Ht]. destruct Ht as [<-|[]]. cbn [at_value].
      eapply variant_name_legal; eauto. eapply nth_error_In; eauto.
  Qed.

  Lemma legal_step : forall v, height v <= N -> enc_legal v.
  Proof.
    intros v Hh Hs id h ts He. rewrite encode_eq in He. unfold enc_type in He.
    destruct (nth_error E id) as [td|] eqn:Htd; [|discriminate].
    destruct (t_body td) as [fs|vs d|k] eqn:Hb.
    3:{ destruct h as [|o]; apply omap_some in He; destruct He as (t & Ht & ->); apply legal_one; [apply legal_text|apply legal_text_elem];
        eapply show_prim_legal; eauto. }
    all: destruct h as [|o]; [eapply content_legal; eauto|].
    all: destruct (ya_flatten (t_attrs td)); [eapply content_legal; eauto|].
    all: destruct (enc_start x enc enca td v) as [[[own child] ns]|] eqn:Hst; [|discriminate];
      destruct (enc_content x enc (Under o) td v) as [ks|] eqn:Hk; [|discriminate]; injection He as <-;
      apply legal_one, legal_elem; [eapply start_legal; eauto|eapply content_legal; eauto].
  Qed.
  Lemma attrs_legal_step : forall v, height v <= N -> enca_legal v.
  Proof.
    intros v Hh Hs id a ns He. rewrite encode_attrs_eq in He. unfold enc_type_attrs in He.
    destruct (nth_error E id) as [td|] eqn:Htd; [|discriminate].
    destruct (t_body td) as [fs|vs d|k]; [..|injection He as <- <-; intros ? []];
      apply omap_some in He; destruct He as ([[own child] ns'] & He & Heq); injection Heq as -> ->; eapply start_legal; eauto.
  Qed.
End Legal.

Theorem encode_legal : forall x E, shows_legal x -> plain_strings E -> forall v, enc_legal x E v.
Proof.
  intros x E H1 H2.
  assert (H : forall n v, height v <= n -> enc_legal x E v /\ enca_legal x E v).
  { induction n as [|n IH]; intros v Hv.
    - split; [apply (legal_step x E H1 H2 0)|apply (attrs_legal_step x E H1 H2 0)]; try exact Hv; intros; lia.
    - split; [apply (legal_step x E H1 H2 (S n))|apply (attrs_legal_step x E H1 H2 (S n))]; try exact Hv; intros w Hw; apply IH; lia. }
  intros v. apply (H (height v)). lia.
Qed.

Theorem ser_legal : forall x E id v l, shows_legal x -> plain_strings E -> strings_legal v ->
  ser_events x E id v = SOk l -> forall e, In e l -> legal_event e.
Proof.
  intros x E id v l H1 H2 Hs Hl e He. pose proof (ser_events_encode x E id v) as Hen.
  destruct (encode x E id v (Under None)) as [ts|] eqn:Hts; [|exfalso; apply (Hen l); exact Hl].
  assert (l = flat_map wtree ts) by congruence. subst l. apply in_flat_map in He. destruct He as (w & Hw & He).
  exact (encode_legal x E H1 H2 v Hs id (Under None) ts Hts w Hw e He).
Qed.
