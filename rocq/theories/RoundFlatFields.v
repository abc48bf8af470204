(** * Round trip of one field, with flattened fields about (used by
      RoundFlatStruct.v). *)
From Verif Require Import Str Num Xml XmlText Reader Schema De SpecTree SpecText SpecNum SpecTyped SpecStruct SpecSer SpecValue
  SpecEnc SpecRound SpecRoundFlat TreeFacts TreeProofs TextProofs ValueProofs StructProofs StructReads EncProofs SerProofs
  RoundNames RoundTexts RoundCore RoundFields RoundProofs SpecAlike InsertProofs AlikeTrees RewriteProofs RoundFlatCtx.
Open Scope list_scope.

Lemma bool_false : forall b, (b = true -> False) -> b = false.
Proof. intros [] H; [destruct (H eq_refl)|reflexivity]. Qed.

(** ** Attribute values, at any level *)
Section AttrValues.
  Variable x : ext.
  Variable E : env.
  Variable L : nat.
  Notation av := (attr_value_at x E (S L)).
  Notation af := (attr_fine_at x E (S L)).

  Lemma attr_user_level : forall id v t, AttrSurvives x E (BUser id) v ->
    attr_show x (encode x E) (BUser id) v = Some t ->
    legal_attr t = true /\ attr_item x av (BUser id) t = OOk v /\ af id t.
  Proof.
    intros id v t H Hs. cbn [attr_show] in Hs. apply omap_some in Hs. destruct Hs as (ts & He & ->).
    rewrite encode_eq in He. unfold enc_type in He. cbn [attr_item]. unfold attr_value_at, attr_fine_at.
    inversion H as [|? td vs d i vr Htd Hb Hid Htag Hv Hu Hbare Ht Hn|? td k w Htd Hb Hid Hp]; subst; rewrite Htd, Hb in *.
    - unfold enc_content in He. rewrite Hb in He. rewrite (proj1 Hv) in He. unfold enc_variant in He. rewrite Hu, Htag in He.
      injection He as <-. cbn [flat_map wtree app]. rewrite (bare_name _ _ Hbare).
      destruct Ht as (Hc & Hl). rewrite chars_text, unesc_pcdata.
      split; [exact (legal_esc _ Hl)|]. split.
      + unfold wrapped. rewrite (clean_node _ Hc), value_of_decode. cbn [decode]. rewrite Htd, Hb, Htag. unfold bad_namespace. cbn [n_ns].
        unfold text_variant. rewrite (variant_for_first _ _ _ Hv), Hu. reflexivity.
      + exists td, (variant_name vr). split; [reflexivity|]. split; [exact Hid|]. split; [reflexivity|]. split; [apply Hc|].
        unfold wrapped. rewrite (clean_node _ Hc), Conforms_Fits.
        eapply fits_unit; [exact Htd|exact Hb|exact Htag| |].
        * apply variant_for_none. exact Hn.
        * rewrite (variant_for_first _ _ _ Hv), Hu. intros (? & ? & ? & ? & Hx & _). discriminate.
    - apply omap_some in He. destruct He as (s & Hs & ->). cbn [flat_map wtree app].
      destruct (prim_text x attr_text _ _ _ _ (fun u h => h) Hp Hs) as [Ht Hparse].
      assert (Hpl : legal s = true /\ legal_attr s = true /\ (text_node s = [Txt s] \/ text_node s = [] /\ s = "")).
      { destruct Ht as [(Hc & Hl)| ->]; [|repeat split; auto].
        split; [apply Hc|]. split; [exact Hl|]. left. apply clean_node. exact Hc. }
      destruct Hpl as (Hpl & Hl & Hn). rewrite chars_text, unesc_pcdata. split; [exact (legal_esc _ Hl)|]. split.
      + unfold wrapped. rewrite value_of_decode. cbn [decode]. rewrite Htd, Hb.
        replace (match text_node s with [Txt u] => u | _ => "" end) with s; [rewrite Hparse; reflexivity|].
        destruct Hn as [->|[-> ->]]; reflexivity.
      + exists td, s. split; [reflexivity|]. split; [exact Hid|]. split; [reflexivity|]. split; [exact Hpl|].
        rewrite Conforms_Fits. unfold wrapped.
        eapply fits_prim; [exact Htd|exact Hb|]. destruct Hn as [->|[-> _]]; eauto.
  Qed.

  Lemma attr_value_level : forall b v t, AttrSurvives x E b v -> attr_show x (encode x E) b v = Some t ->
    legal_attr t = true /\ attr_item x av b t = OOk v /\ (forall id, b = BUser id -> af id t).
  Proof.
    intros b v t H Hs. destruct b as [s|id].
    - inversion H as [? ? Hl| |]; subst. cbn [attr_show] in Hs.
      destruct (leaf_text x (fun t => legal_attr t = true) s v t (fun u h => proj2 h) Hl Hs) as (H1 & _ & H3).
      split; [exact H1|]. split; [cbn [attr_item]; rewrite H3; reflexivity|discriminate].
    - destruct (attr_user_level id v t H Hs) as (H1 & H2 & H3). split; [exact H1|]. split; [exact H2|].
      intros id' Hid. injection Hid as <-. exact H3.
  Qed.
End AttrValues.

(** ** Start tags *)
Lemma own_bound' : forall E id td, nth_error E id = Some td -> forall pu, In pu (own_bindings (t_attrs td)) -> In pu (bindings E).
Proof. exact own_bound. Qed.

(** The namespaces put on an element are those of the types. *)
Lemma attrs_bound : forall x E w id A M, encode_attrs x E id w = Some (A, M) -> forall pu, In pu M -> In pu (bindings E).
Proof.
  intros x E. assert (H : forall n w, height w < n -> forall id A M, encode_attrs x E id w = Some (A, M) -> forall pu, In pu M -> In pu (bindings E)).
  { induction n as [|n IH]; intros w Hw id A M He pu Hin; [lia|]. rewrite encode_attrs_eq in He. unfold enc_type_attrs in He.
    destruct (nth_error E id) as [td|] eqn:Htd; [|discriminate].
    assert (Hstart : forall own child ns, enc_start x (encode x E) (encode_attrs x E) td w = Some (own, child, ns) -> forall pu, In pu ns -> In pu (bindings E)).
    { intros own child ns Hs. unfold enc_start in Hs. destruct (t_body td) as [fs|vs d|k]; [|destruct w; try discriminate|discriminate].
      2:{ apply omap_some in Hs. destruct Hs as (vr & _ & Hs). injection Hs as _ _ ->. intros ? []. }
      destruct w as [| | | | | | |ws|]; try discriminate.
      assert (Hb : forall v, In v ws -> height v < n) by (intros v Hv; apply height_in in Hv; cbn in Hw; lia).
      revert Hs. generalize (VRec ws). clear -IH Hb. intros self. revert own child ns. revert ws Hb.
      induction fs as [|f fs IHf]; intros [|v vs] Hb own child ns Hs; cbn [enc_tag] in Hs; try discriminate.
      - injection Hs as _ _ <-. intros ? [].
      - destruct (enc_tag x (encode x E) (encode_attrs x E) (t_attrs td) self fs vs) as [[[own' child'] ns']|] eqn:Ht; [|discriminate].
        pose proof (IHf vs (fun u Hu => Hb u (or_intror Hu)) own' child' ns' Ht) as Hr.
        destruct (ya_attribute (f_attrs f)).
        + apply omap_some in Hs. destruct Hs as (l & _ & Hs). injection Hs as _ _ ->. exact Hr.
        + destruct (ya_flatten (f_attrs f)); [|injection Hs as _ _ <-; exact Hr].
          destruct (f_ty f) as [[s|id]|b|b|b]; try (injection Hs as _ _ <-; exact Hr).
          apply omap_some in Hs. destruct Hs as ([ca cn] & Hc & Hs). injection Hs as _ _ ->. intros [p u] Hin.
          apply ns_extend_in in Hin. destruct Hin as [Hin|Hin]; [|apply Hr; exact Hin].
          apply (IH v (Hb v (or_introl eq_refl)) id ca cn Hc). exact Hin. }
    assert (Hext : forall own child ns, enc_start x (encode x E) (encode_attrs x E) td w = Some (own, child, ns) ->
      In pu (ns_extend (declared (t_attrs td)) ns) -> In pu (bindings E)).
    { intros own child ns Hs Hp. destruct pu as [p u]. apply ns_extend_in in Hp. destruct Hp as [Hp|Hp]; [|apply (Hstart own child ns Hs); exact Hp].
      apply (own_bound E id td Htd). apply declared_in. exact Hp. }
    destruct (t_body td) eqn:Hb; [| |injection He as _ <-; destruct Hin];
      apply omap_some in He; destruct He as ([[own child] ns] & Hs & He); injection He as _ ->; apply (Hext own child ns Hs Hin). }
  intros w. apply (H (S (height w))). lia.
Qed.

Section Struct.
  Variable x : ext.
  Variable E : env.
  Notation B := (bindings E).
  Variable ra : yattr.
  Variable fs : list field.
  Variable st : nsstack.
  Hypothesis Hcons : consistent E.
  Hypothesis Hra : forall pu, In pu (own_bindings ra) -> In pu B.
  Hypothesis Hfine : struct_ok E ra fs.
  Hypothesis Hst : within B st.
  Hypothesis Hholds : holds st ra.
  Variable tn : string.

  Lemma attr_name' : forall f, In f fs -> ya_attribute (f_attrs f) = true ->
    n_local (qname (field_qname ra f)) = field_name f /\
    forall t, legal t = true -> good_attr st (Attr (qname (field_qname ra f)) t).
  Proof.
    intros f Hin Ha. destruct Hfine as (_ & Hf & _). specialize (Hf f Hin). rewrite Ha in Hf.
    assert (Hx : struct_fine E ra [f]).
    { split; [apply Hfine|]. split.
      - intros g [<-|[]]. rewrite Ha. exact Hf.
      - intros [|i] [|j] g h Hi Hj _; try reflexivity; cbn [nth_error] in *; try (destruct i; discriminate); destruct j; discriminate. }
    apply (attr_name E ra [f] st Hcons Hra Hx Hholds f); [left; reflexivity|exact Ha].
  Qed.

  Lemma own_label' : forall i f n, nth_error fs i = Some f -> elem_field f -> elabel n = flabel ra f ->
    field_for ra fs n = Some (i, f).
  Proof.
    intros i f n Hi Ha Hl. destruct Hfine as (_ & Hf & Hd). apply field_for_first; [|exact Hl].
    split; [exact Hi|]. split; [exact Ha|].
    intros j g Hj Hg Hgf He. assert (j = i) by (apply (Hd j i g f Hg Hi); left; auto). lia.
  Qed.
  Lemma field_means' : forall f, In f fs -> elem_field f ->
    means B st (field_qname ra f) (flabel ra f) /\ takes_base E (base_of (f_ty f)) (flabel ra f) /\ (forall b, f_ty f <> TOptVec b).
  Proof.
    intros f Hin [Ha Hfl]. destruct Hfine as (_ & Hf & _). specialize (Hf f Hin). rewrite Ha, Hfl in Hf.
    destruct Hf as (H1 & H2 & H3 & H4). split; [|split; assumption]. apply prefixed_means; assumption.
  Qed.

  (** The text goes to the one text field. *)
  Lemma text_fields_one : forall i f, nth_error fs i = Some f -> ya_text (f_attrs f) = true ->
    (f_ty f = TBase (BSimple SString) \/ f_ty f = TOpt (BSimple SString)) -> text_fields fs = [i].
  Proof.
    intros i f Hi Ht Hty. unfold text_fields.
    assert (H : forall l j, (forall n g, nth_error l n = Some g -> nth_error fs (j + n) = Some g) -> j <= i < j + List.length l ->
      map fst (filter (fun p => (ya_text (f_attrs (snd p)) &&
        match f_ty (snd p) with TBase (BSimple SString) | TOpt (BSimple SString) => true | _ => false end)%bool)
        (combine (seq j (List.length l)) l)) = [i]).
    { assert (Hno : forall l j, (forall n g, nth_error l n = Some g -> nth_error fs (j + n) = Some g) -> i < j ->
        filter (fun p => (ya_text (f_attrs (snd p)) &&
        match f_ty (snd p) with TBase (BSimple SString) | TOpt (BSimple SString) => true | _ => false end)%bool)
        (combine (seq j (List.length l)) l) = []).
      { induction l as [|g l IH]; intros j Hl Hj; [reflexivity|]. rewrite combine_seq_cons. cbn [filter snd].
        destruct (ya_text (f_attrs g)) eqn:Hg.
        - exfalso. pose proof (Hl 0 g eq_refl) as H0. destruct Hfine as (_ & _ & Hd).
          assert (j + 0 = i) by (apply (Hd (j + 0) i g f H0 Hi); auto). lia.
        - cbn [andb]. apply IH; [|lia]. intros n h Hn. rewrite Nat.add_succ_comm. apply Hl. exact Hn. }
      induction l as [|g l IH]; intros j Hl Hj; [cbn in Hj; lia|]. rewrite combine_seq_cons. cbn [filter snd].
      pose proof (Hl 0 g eq_refl) as H0. rewrite Nat.add_0_r in H0.
      assert (Hl' : forall n h, nth_error l n = Some h -> nth_error fs (S j + n) = Some h)
        by (intros n h Hn; rewrite Nat.add_succ_comm; apply Hl; exact Hn).
      destruct (Nat.eq_dec j i) as [->|Hji].
      - assert (g = f) by congruence. subst g. rewrite Ht.
        replace (match f_ty f with TBase (BSimple SString) | TOpt (BSimple SString) => true | _ => false end) with true
          by (destruct Hty as [-> | ->]; reflexivity).
        cbn [andb map fst]. rewrite Hno; [reflexivity|exact Hl'|lia].
      - destruct (ya_text (f_attrs g)) eqn:Hg.
        + exfalso. destruct Hfine as (_ & _ & Hd). apply Hji. apply (Hd j i g f H0 Hi); auto.
        + cbn [andb]. apply IH; [exact Hl'|]. cbn [List.length] in Hj. lia. }
    apply (H fs 0); [auto|]. assert (i < List.length fs) by (apply nth_error_Some; congruence). lia.
  Qed.
  Lemma text_fields_none : (forall f, In f fs -> ya_text (f_attrs f) = false) -> text_fields fs = [].
  Proof.
    intros H. unfold text_fields, numbered. generalize 0. clear Hfine Hholds. revert H. induction fs as [|f l IH]; intros H i; [reflexivity|].
    rewrite combine_seq_cons. cbn [filter snd]. rewrite (H f (or_introl eq_refl)). cbn [andb]. apply IH. intros g Hg. apply H. right. exact Hg.
  Qed.

  (** An attribute field: not written, or one attribute. *)
  Lemma attr_round' : forall L self f v a, In f fs -> ya_attribute (f_attrs f) = true ->
    FieldLasts x E false self f v -> enc_attr x (encode x E) ra self f v = Some a ->
    (a = [] /\ field_result x tn f [] = Ok v) \/
    exists t w, a = [Attr (qname (field_qname ra f)) t] /\ legal_attr t = true /\
      (exists b, f_ty f = TBase b \/ f_ty f = TOpt b) /\
      attr_item x (attr_value_at x E (S L)) (base_of (f_ty f)) t = OOk w /\
      (forall id, base_of (f_ty f) = BUser id -> attr_fine_at x E (S L) id t) /\
      field_result x tn f [w] = Ok v.
  Proof.
    intros L self f v a Hin Ha Hs He.
    assert (Hmiss : forall g u, g = f -> missing_value x g = Some u -> field_result x tn f [] = Ok u).
    { intros g u -> Hu. rewrite field_result_missing, Hu. reflexivity. }
    assert (Hflat : flat_field f = true -> False) by (unfold flat_field; rewrite Ha; discriminate).
    assert (Hgen : forall t w, f_ty f = TBase t /\ v = w \/ f_ty f = TOpt t /\ v = VOpt (Some w) ->
      ~ unneeded x self f v -> AttrSurvives x E t w -> exists s, a = [Attr (qname (field_qname ra f)) s] /\ legal_attr s = true /\
      (exists b, f_ty f = TBase b \/ f_ty f = TOpt b) /\
      attr_item x (attr_value_at x E (S L)) (base_of (f_ty f)) s = OOk w /\
      (forall id, base_of (f_ty f) = BUser id -> attr_fine_at x E (S L) id s) /\
      field_result x tn f [w] = Ok v).
    { intros t w Hty Hu Hsv. assert (Hl : left_out x self v f false = false).
      { apply bool_false. intros Hl. apply left_out_unneeded in Hl. tauto. }
      unfold enc_attr in He.
      assert (Hs' : exists s, attr_show x (encode x E) t w = Some s /\ a = [Attr (qname (field_qname ra f)) s]).
      { destruct Hty as [[Hty ->]|[Hty ->]]; rewrite Hty in He; apply omap_some in He; destruct He as (s & H1 & H2);
          rewrite Hl in H2; eauto. }
      destruct Hs' as (s & H1 & H2). destruct (attr_value_level x E L t w s Hsv H1) as (H3 & H4 & H5). exists s.
      split; [exact H2|]. split; [exact H3|].
      destruct Hty as [[Hty ->]|[Hty ->]]; unfold field_result; rewrite Hty; cbn [base_of last_of]; eauto 10. }
    remember false as b0 eqn:Hb0. destruct Hs as [b self f t Hnf Hty|b self f t Hty|self f v Ha' Hv|b self f v Ha' Hu Hv|b self f v Ha' Ht Hfl Hsup Hv
      |self f v t w Ha' Hu Hty Hsv|b self f v t Ha' Ht Hty Hc|b self f t Ha' Ht Hns Hcd Hty Hc Hcl|b self f v l Ha' Ht Hfl Hns Hcd Hit Hl
      |b self f id v Hff|b self f id v Hff|b self f id td gs g t Hff];
      try congruence; try (exfalso; apply Hflat; assumption); unfold enc_attr in He.
    - rewrite Hty in He. injection He as <-. left. split; [reflexivity|]. apply (Hmiss f); [reflexivity|].
      unfold missing_value. rewrite Hty. reflexivity.
    - rewrite Hty in He. injection He as <-. left. split; [reflexivity|]. apply (Hmiss f); [reflexivity|].
      unfold missing_value. rewrite Hty. reflexivity.
    - left. split; [|apply (Hmiss f v eq_refl Hv)]. apply left_out_unneeded in Hu. rewrite Hu in He.
      destruct (f_ty f) as [t|t|t|t]; [|destruct v as [| | | | |[w|]| | |]; try discriminate..| destruct v; try discriminate];
      try (apply omap_some in He; destruct He as (s & _ & ->); reflexivity); try (injection He as <-; reflexivity).
    - right. destruct (Hgen t w Hty Hu Hsv) as (s & Hr). exists s, w. exact Hr.
  Qed.

  (** Without start tag, attributes get what a missing attribute gets. *)
  Lemma lost_attr' : forall self f v, FieldLasts x E true self f v -> ya_attribute (f_attrs f) = true -> field_result x tn f [] = Ok v.
  Proof.
    intros self f v Hs Ha. rewrite field_result_missing.
    assert (Hflat : flat_field f = true -> False) by (unfold flat_field; rewrite Ha; discriminate).
    remember true as b0 eqn:Hb0. destruct Hs as [b self f t Hnf Hty|b self f t Hty|self f v Ha' Hv|b self f v Ha' Hu Hv|b self f v Ha' Ht Hfl Hsup Hv
      |self f v t w Ha' Hu Hty Hsv|b self f v t Ha' Ht Hty Hc|b self f t Ha' Ht Hns Hcd Hty Hc Hcl|b self f v l Ha' Ht Hfl Hns Hcd Hit Hl
      |b self f id v Hff|b self f id v Hff|b self f id td gs g t Hff];
      try congruence; try (exfalso; apply Hflat; assumption); try (rewrite Hv; reflexivity); unfold missing_value; rewrite Hty; reflexivity.
  Qed.
End Struct.
