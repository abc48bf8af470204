(** * Properties of struct deserializers: from [decode] to [Reads]. *)
From Verif Require Import Str Num Xml XmlText Reader Schema De RunFacts SpecTree TreeFacts TreeProofs
  SpecText TextProofs SpecValue ValueProofs SpecStruct StructProofs.
Open Scope list_scope.

Section Reads.
  Variable x : ext.
  Variable E : env.

  Notation decode_at k := (decode x E (attr_value_at x E k) (flat_value_at x E k)).
  Notation Fits_at k := (Fits x E (attr_fine_at x E k) (flat_fine_at x E k)).
  Notation KidFits_at k := (KidFits x E (attr_fine_at x E k) (flat_fine_at x E k)).

  Lemma read_decode : forall k id d t o, Conforms x E k id t ->
    (Reads x E id d t o <-> decode_at k (Nat.eqb d 0) id t = o).
  Proof.
    intros k id d t o Hc. pose proof (value_read x E k id t d Hc) as Hv. rewrite value_of_decode in Hv. split.
    - intros H. eapply Reads_fun; eassumption.
    - intros <-. exact Hv.
  Qed.

  Lemma conforms_struct : forall k id td fs n a m kids, struct_type E id td fs ->
    (Conforms x E k id (Elem n a m kids) <->
     (elabel n = root_label td \/ field_for (t_attrs td) fs n = None) /\
     attrs_fine (attr_fine_at x E k) fs a /\
     (forall c, In c kids -> KidFits_at k (t_attrs td) fs c) /\
     (flattens fs = true ->
         (forall f, In f fs -> flat_field f = true ->
            exists id', (f_ty f = TBase (BUser id') \/ f_ty f = TOpt (BUser id')) /\
              flat_fine_at x E k id' (Elem n a m (filter (is_left (t_attrs td) fs) kids))) /\
         (forall c, In c kids -> Tidy x E (t_attrs td) fs c))).
  Proof.
    intros k id td fs n a m kids [Htd Hbody]. rewrite Conforms_Fits. split.
    - intros H. inversion H; subst; try congruence.
      match goal with H1 : nth_error E id = Some ?t |- _ => assert (t = td) by congruence; subst end.
      match goal with H1 : t_body td = DStruct ?t |- _ => assert (t = fs) by congruence; subst end. auto.
    - intros (H1 & H2 & H3 & H4). eapply fits_struct; eauto.
  Qed.

  (** ** C10 *)
  Lemma read_missing : forall k id td fs d n a m kids i f vs,
    struct_type E id td fs -> nth_error fs i = Some f -> unsupplied (t_attrs td) f a kids ->
    Conforms x E k id (Elem n a m kids) ->
    Reads x E id d (Elem n a m kids) (OOk (VRec vs)) ->
    missing_value x f <> None /\ nth_error vs i = missing_value x f.
  Proof.
    intros k id td fs d n a m kids i f vs Hs Hi Hu Hc Hr. apply (read_decode k) in Hr; [|exact Hc].
    eapply decode_missing; eassumption.
  Qed.

  Lemma read_required : forall k id td fs d n a m k1 k2 kn ka km kk i f v,
    struct_type E id td fs -> first_labelled (t_attrs td) fs i f -> missing_value x f = None ->
    unsupplied (t_attrs td) f a (k1 ++ k2) -> elabel kn = flabel (t_attrs td) f ->
    Conforms x E k id (Elem n a m (k1 ++ Elem kn ka km kk :: k2)) ->
    Reads x E id d (Elem n a m (k1 ++ Elem kn ka km kk :: k2)) (OOk v) ->
    Reads x E id d (Elem n a m (k1 ++ k2)) (OErr (f_label f +++ " is a required field of " +++ t_name td)).
  Proof.
    intros k id td fs d n a m k1 k2 kn ka km kk i f v Hs Hfl Hm Hu Hl Hc Hr.
    assert (Hc' : Conforms x E k id (Elem n a m (k1 ++ k2))).
    { apply (conforms_struct k id td fs) in Hc; [|exact Hs]. apply (conforms_struct k id td fs); [exact Hs|].
      destruct Hc as (H1 & H2 & H3 & H4). repeat split; auto.
      - intros c Hin. apply H3. apply in_app_or in Hin. apply in_or_app. cbn [In]. tauto.
      - intros f0 Hf0 Hff. destruct (H4 H) as [H5 _]. destruct (H5 f0 Hf0 Hff) as (id' & Hty & Hfine).
        exists id'. split; [exact Hty|].
        pose proof (rest_used (t_attrs td) fs n a m k1 k2 kn ka km kk _ (field_for_first _ _ _ _ _ Hfl Hl)) as Hru.
        unfold rest_of in Hru. rewrite <- Hru. exact Hfine.
      - intros c Hin. destruct (H4 H) as [_ H6]. apply H6. apply in_app_or in Hin. apply in_or_app. cbn [In]. tauto. }
    apply (read_decode k) in Hr; [|exact Hc]. apply (read_decode k); [exact Hc'|].
    eapply decode_required; eassumption.
  Qed.

  Lemma read_required_attr : forall k id td fs d n a1 b a2 m kids i f v,
    struct_type E id td fs -> flattens fs = false -> nth_error fs i = Some f -> missing_value x f = None ->
    unsupplied (t_attrs td) f (a1 ++ a2) kids ->
    (forall j g, j <> i -> nth_error fs j = Some g -> ya_attribute (f_attrs g) = true ->
       n_local (at_name b) <> field_name g) ->
    Conforms x E k id (Elem n (a1 ++ b :: a2) m kids) ->
    Reads x E id d (Elem n (a1 ++ b :: a2) m kids) (OOk v) ->
    Reads x E id d (Elem n (a1 ++ a2) m kids) (OErr (f_label f +++ " is a required field of " +++ t_name td)).
  Proof.
    intros k id td fs d n a1 b a2 m kids i f v Hs Hfl Hi Hm Hu Hne Hc Hr.
    assert (Hc' : Conforms x E k id (Elem n (a1 ++ a2) m kids)).
    { apply (conforms_struct k id td fs) in Hc; [|exact Hs]. apply (conforms_struct k id td fs); [exact Hs|].
      destruct Hc as (H1 & H2 & H3 & _). repeat split; auto; try congruence.
      intros g c id' Hg Hcin. apply (H2 g c id' Hg). apply in_app_or in Hcin. apply in_or_app. cbn [In]. tauto. }
    apply (read_decode k) in Hr; [|exact Hc]. apply (read_decode k); [exact Hc'|].
    eapply decode_required_attr; eassumption.
  Qed.

  Lemma read_required_text : forall k id td fs d n a m k1 s k2 i f v,
    struct_type E id td fs -> flattens fs = false -> nth_error fs i = Some f -> missing_value x f = None ->
    unsupplied (t_attrs td) f a (k1 ++ k2) ->
    (forall j g, nth_error fs j = Some g -> ya_text (f_attrs g) = true -> j = i) ->
    Conforms x E k id (Elem n a m (k1 ++ Txt s :: k2)) ->
    Reads x E id d (Elem n a m (k1 ++ Txt s :: k2)) (OOk v) ->
    Reads x E id d (Elem n a m (k1 ++ k2)) (OErr (f_label f +++ " is a required field of " +++ t_name td)).
  Proof.
    intros k id td fs d n a m k1 s k2 i f v Hs Hfl Hi Hm Hu Hone Hc Hr.
    assert (Hc' : Conforms x E k id (Elem n a m (k1 ++ k2))).
    { apply (conforms_struct k id td fs) in Hc; [|exact Hs]. apply (conforms_struct k id td fs); [exact Hs|].
      destruct Hc as (H1 & H2 & H3 & _). repeat split; auto; try congruence.
      intros c Hin. apply H3. apply in_app_or in Hin. apply in_or_app. cbn [In]. tauto. }
    apply (read_decode k) in Hr; [|exact Hc]. apply (read_decode k); [exact Hc'|].
    eapply decode_required_text; eassumption.
  Qed.

  (** ** C11 *)
  Lemma swap_conforms : forall k id td fs n a m pre b c post, struct_type E id td fs ->
    may_swap (t_attrs td) fs b c ->
    Conforms x E k id (Elem n a m (pre ++ b :: c :: post)) ->
    Conforms x E k id (Elem n a m (pre ++ c :: b :: post)).
  Proof.
    intros k id td fs n a m pre b c post Hs Hsw Hc.
    apply (conforms_struct k id td fs) in Hc; [|exact Hs]. apply (conforms_struct k id td fs); [exact Hs|].
    destruct Hc as (H1 & H2 & H3 & H4).
    assert (Hin : forall z, In z (pre ++ c :: b :: post) -> In z (pre ++ b :: c :: post)).
    { intros z. rewrite !in_app_iff. cbn [In]. tauto. }
    repeat split; auto.
    - intros f0 Hf0 Hff. destruct (H4 H) as [H5 _]. destruct (H5 f0 Hf0 Hff) as (id' & Hty & Hfine).
      exists id'. split; [exact Hty|].
      assert (Heq : filter (is_left (t_attrs td) fs) (pre ++ c :: b :: post) = filter (is_left (t_attrs td) fs) (pre ++ b :: c :: post)).
      { rewrite !filter_app. f_equal. cbn [filter]. destruct Hsw as [_ Hsw].
        destruct (Hsw H) as [Hl|Hl]; rewrite Hl; [destruct (is_left (t_attrs td) fs c)|destruct (is_left (t_attrs td) fs b)]; reflexivity. }
      rewrite Heq. exact Hfine.
    - intros z Hz. destruct (H4 H) as [_ H6]. auto.
  Qed.

  Lemma read_reordered : forall k id td fs d n a m kids kids' v, struct_type E id td fs ->
    reordered (t_attrs td) fs kids kids' ->
    Conforms x E k id (Elem n a m kids) -> Reads x E id d (Elem n a m kids) (OOk v) ->
    Conforms x E k id (Elem n a m kids') /\ Reads x E id d (Elem n a m kids') (OOk v).
  Proof.
    intros k id td fs d n a m kids kids' v Hs Hre. induction Hre as [l|pre b c post Hsw|l l' l'' _ IH1 _ IH2]; intros Hc Hr.
    - auto.
    - pose proof (swap_conforms _ _ _ _ _ _ _ _ _ _ _ Hs Hsw Hc) as Hc'. split; [exact Hc'|].
      apply (read_decode k) in Hr; [|exact Hc]. apply (read_decode k); [exact Hc'|].
      eapply decode_swap; eassumption.
    - destruct (IH1 Hc Hr). auto.
  Qed.

  (** ** C12 *)
  Lemma given_items : forall k ra fs kids ck i f d, first_labelled ra fs i f -> ya_text (f_attrs f) = false ->
    (forall c, In c kids -> KidFits_at k ra fs c) ->
    ocollect (kid_given x (decode_at k false) ra fs) kids = OOk ck ->
    Items x E (S d) ra f kids (given i ck).
  Proof.
    intros k ra fs kids ck i f d Hfl Htx. revert ck. induction kids as [|c kids IH]; intros ck Hk H.
    - inversion H; subst. constructor.
    - rewrite ocollect_cons in H. apply obind_ok in H. destruct H as (u & Hu & H).
      apply obind_ok in H. destruct H as (w & Hw & H). inversion H; subst ck. clear H. rewrite given_app.
      specialize (IH w (fun c Hc => Hk c (or_intror Hc)) Hw). specialize (Hk c (or_introl eq_refl)).
      destruct c as [n a m ks|s].
      + pose proof Hu as Hu0. cbn [kid_given] in Hu. destruct (label_eqb (elabel n) (flabel ra f)) eqn:Hl.
        * apply label_eqb_eq in Hl. pose proof (field_for_first _ _ _ _ _ Hfl Hl) as Hff. rewrite Hff in Hu.
          destruct (base_of (f_ty f)) as [s|id'] eqn:Hb.
          -- inversion Hu; subst u. clear Hu. unfold simple_given. inversion Hk; subst; try congruence.
             match goal with Ho : ks = [] \/ _ |- _ => destruct Ho as [->|[t ->]] end.
             ++ apply items_invalid with (s := s); auto.
             ++ destruct (visit_simple x s t) as [v|e] eqn:Hv.
                ** rewrite given_one, Nat.eqb_refl. eapply items_simple; eassumption.
                ** apply items_invalid with (s := s); auto. right; eauto.
          -- apply obind_ok in Hu. destruct Hu as (v & Hv & Hu). inversion Hu; subst u.
             rewrite given_one, Nat.eqb_refl. apply items_user with (id := id'); auto.
             assert (Hfit : Fits_at k id' (Elem n a m ks)).
             { inversion Hk as [|? ? ? ? ? ? i' f' ? Hff' Hb'|? ? ? ? ? ? i' f' id2 Hff' Hb' Hfit|]; subst.
               - rewrite Hff in Hff'. inversion Hff'; subst. congruence.
               - rewrite Hff in Hff'. inversion Hff'; subst. rewrite Hb in Hb'. inversion Hb'; subst. exact Hfit.
               - congruence. }
             apply (read_decode k).
             ++ rewrite Conforms_Fits. exact Hfit.
             ++ exact Hv.
        * assert (given i u = []) as ->.
          { apply given_none. intros p Hp Hpi.
            destruct (kid_given_match x (attr_value_at x E k) (flat_value_at x E k) _ _ _ _ _ _ Hu0 Hp) as (f' & H1 & H2). rewrite Hpi in *.
            apply field_for_spec in H2. destruct H2 as (_ & _ & _ & H2).
            destruct Hfl as (Hi & _). rewrite Hi in H1. inversion H1; subst.
            apply Bool.not_true_iff_false in Hl. apply Hl. apply label_eqb_eq. congruence. }
          apply items_other; [|exact IH]. intros He. apply Bool.not_true_iff_false in Hl. apply Hl.
          apply label_eqb_eq. exact He.
      + cbn [kid_given] in Hu. inversion Hu; subst u.
        assert (given i (map (fun i => (i, VStr s)) (text_fields fs)) = []) as ->.
        { apply given_none. intros p Hp. apply in_map_iff in Hp. destruct Hp as (j & <- & Hj). cbn [fst].
          intros ->. unfold text_fields in Hj. apply in_map_iff in Hj. destruct Hj as ([j g] & Hj1 & Hj2).
          cbn in Hj1. subst j. apply filter_In in Hj2. destruct Hj2 as [Hj2 Hj3]. apply numbered_in in Hj2.
          destruct Hfl as (Hi & _). rewrite Hi in Hj2. inversion Hj2; subst. cbn in Hj3.
          rewrite Htx in Hj3. discriminate. }
        apply items_text. exact IH.
  Qed.

  Lemma read_items : forall k id td fs d n a m kids i f vs, struct_type E id td fs ->
    first_labelled (t_attrs td) fs i f -> ya_text (f_attrs f) = false ->
    Conforms x E k id (Elem n a m kids) -> Reads x E id d (Elem n a m kids) (OOk (VRec vs)) ->
    exists l, Items x E (S d) (t_attrs td) f kids l /\ nth_error vs i = collected x f l.
  Proof.
    intros k id td fs d n a m kids i f vs Hs Hfl Htx Hc Hr. apply (read_decode k) in Hr; [|exact Hc].
    destruct (decode_struct_ok _ _ _ _ _ _ _ _ _ _ _ _ _ Hs Hr) as (ca & ck & cf & ws & _ & Hca & Hck & Hcf & Hf & Heq).
    inversion Heq; subst ws. pose proof Hfl as (Hi & [Hna Hnf] & _).
    destruct (fields_result_nth _ _ _ _ _ _ _ _ Hf Hi) as (v & -> & Hv). cbn [Nat.add] in Hv.
    rewrite !given_app in Hv. rewrite (given_attrs_nil _ _ _ _ _ _ _ Hca Hi) in Hv by congruence.
    rewrite (given_flat_nil _ _ _ _ _ _ Hcf Hi) in Hv by (apply elem_not_flat; auto).
    rewrite app_nil_r in Hv. cbn [app] in Hv. exists (given i ck). split.
    - apply (conforms_struct k id td fs) in Hc; [|exact Hs]. destruct Hc as (_ & _ & Hk & _).
      eapply given_items; eassumption.
    - symmetry. eapply field_result_collected; eassumption.
  Qed.

  (** ** C13, C16: ignored children *)
  Lemma kid_conforms : forall k id td fs n a m k1 c k2, struct_type E id td fs -> flattens fs = false ->
    KidFits_at k (t_attrs td) fs c ->
    (Conforms x E k id (Elem n a m (k1 ++ c :: k2)) <-> Conforms x E k id (Elem n a m (k1 ++ k2))).
  Proof.
    intros k id td fs n a m k1 c k2 Hs Hf Hk. rewrite !(conforms_struct k id td fs) by exact Hs.
    split; intros (H1 & H2 & H3 & _); repeat split; auto; try congruence.
    - intros z Hz. apply H3. apply in_app_or in Hz. apply in_or_app. cbn [In]. tauto.
    - intros z Hz. apply in_app_or in Hz. destruct Hz as [Hz|[<-|Hz]]; auto; apply H3; apply in_or_app; auto.
  Qed.

  Lemma read_noop : forall k id td fs d n a m k1 c k2 o, struct_type E id td fs -> flattens fs = false ->
    KidFits_at k (t_attrs td) fs c ->
    kid_given x (decode_at k false) (t_attrs td) fs c = OOk [] ->
    Conforms x E k id (Elem n a m (k1 ++ k2)) ->
    (Reads x E id d (Elem n a m (k1 ++ c :: k2)) o <-> Reads x E id d (Elem n a m (k1 ++ k2)) o).
  Proof.
    intros k id td fs d n a m k1 c k2 o Hs Hf Hk Hg Hc.
    rewrite (read_decode k) by (apply (kid_conforms k id td fs); assumption). rewrite (read_decode k) by assumption.
    rewrite (decode_noop x E _ _ _ id td fs) by assumption. reflexivity.
  Qed.

  Lemma field_for_none : forall ra fs n,
    (forall f, In f fs -> elem_field f -> flabel ra f <> elabel n) -> field_for ra fs n = None.
  Proof.
    intros ra fs n H. destruct (field_for ra fs n) as [[i f]|] eqn:Hff; [|reflexivity]. exfalso.
    apply field_for_spec in Hff. destruct Hff as (Hi & Ha & Hf & Hl).
    apply (H f); [eapply nth_error_In; eassumption| |].
    - split; assumption.
    - exact Hl.
  Qed.

  Lemma read_unknown : forall k id td fs d n a m k1 kn ka km kk k2 o, struct_type E id td fs -> flattens fs = false ->
    (forall f, In f fs -> elem_field f -> flabel (t_attrs td) f <> elabel kn) ->
    Conforms x E k id (Elem n a m (k1 ++ k2)) ->
    (Reads x E id d (Elem n a m (k1 ++ Elem kn ka km kk :: k2)) o <-> Reads x E id d (Elem n a m (k1 ++ k2)) o).
  Proof.
    intros k id td fs d n a m k1 kn ka km kk k2 o Hs Hf Hu Hc. apply field_for_none in Hu.
    apply (read_noop k id td fs); auto.
    - apply kid_other. exact Hu.
    - cbn [kid_given]. rewrite Hu. reflexivity.
  Qed.

  Lemma read_unknown_attr : forall k id td fs d n a1 b a2 m kids o, struct_type E id td fs -> flattens fs = false ->
    (forall f, In f fs -> ya_attribute (f_attrs f) = true -> n_local (at_name b) <> field_name f) ->
    Conforms x E k id (Elem n (a1 ++ a2) m kids) ->
    (Reads x E id d (Elem n (a1 ++ b :: a2) m kids) o <-> Reads x E id d (Elem n (a1 ++ a2) m kids) o).
  Proof.
    intros k id td fs d n a1 b a2 m kids o Hs Hf Hb Hc.
    assert (Hc' : Conforms x E k id (Elem n (a1 ++ b :: a2) m kids)).
    { apply (conforms_struct k id td fs) in Hc; [|exact Hs]. apply (conforms_struct k id td fs); [exact Hs|].
      destruct Hc as (H1 & H2 & H3 & _). repeat split; auto; try congruence.
      intros f c id' Hfin Hcin Ha Hn Hty. apply in_app_or in Hcin. destruct Hcin as [Hin|[<-|Hin]].
      - apply (H2 f c id' Hfin); auto. apply in_or_app; auto.
      - exfalso. eapply Hb; eassumption.
      - apply (H2 f c id' Hfin); auto. apply in_or_app; auto. }
    rewrite (read_decode k) by exact Hc'. rewrite (read_decode k) by exact Hc.
    rewrite (decode_attr_noop x E _ _ _ id td fs) by assumption. reflexivity.
  Qed.

  Lemma read_invalid_child : forall k id td fs d n a m k1 kn ka km kk k2 i f s o,
    struct_type E id td fs -> flattens fs = false ->
    first_labelled (t_attrs td) fs i f -> elabel kn = flabel (t_attrs td) f -> n_ns kn <> Some "" ->
    base_of (f_ty f) = BSimple s ->
    (kk = [] \/ exists t e, kk = [Txt t] /\ visit_simple x s t = Er e) ->
    Conforms x E k id (Elem n a m (k1 ++ k2)) ->
    (Reads x E id d (Elem n a m (k1 ++ Elem kn ka km kk :: k2)) o <-> Reads x E id d (Elem n a m (k1 ++ k2)) o).
  Proof.
    intros k id td fs d n a m k1 kn ka km kk k2 i f s o Hs Hf Hfl Hl Hns Hb Hkk Hc.
    pose proof (field_for_first _ _ _ _ _ Hfl Hl) as Hff.
    apply (read_noop k id td fs); auto.
    - eapply kid_simple; eauto. destruct Hkk as [->|(t & e & -> & _)]; eauto.
    - cbn [kid_given]. rewrite Hff, Hb. destruct Hkk as [->|(t & e & -> & He)]; cbn [simple_given]; [reflexivity|].
      rewrite He. reflexivity.
  Qed.

  (** ** C14 *)
  Lemma read_own_attrs : forall k id td fs d n a m kids n' m' kids' i f vs vs', struct_type E id td fs ->
    nth_error fs i = Some f -> ya_attribute (f_attrs f) = true -> ya_text (f_attrs f) = false ->
    Conforms x E k id (Elem n a m kids) -> Conforms x E k id (Elem n' a m' kids') ->
    Reads x E id d (Elem n a m kids) (OOk (VRec vs)) ->
    Reads x E id d (Elem n' a m' kids') (OOk (VRec vs')) ->
    nth_error vs i = nth_error vs' i.
  Proof.
    intros k id td fs d n a m kids n' m' kids' i f vs vs' Hs Hi Ha Ht Hc Hc' Hr Hr'.
    apply (read_decode k) in Hr; [|exact Hc]. apply (read_decode k) in Hr'; [|exact Hc'].
    eapply decode_same_attrs; eassumption.
  Qed.

  Lemma read_attr_values : forall k id td fs d n a m kids i f s vs, struct_type E id td fs ->
    nth_error fs i = Some f -> ya_attribute (f_attrs f) = true -> ya_text (f_attrs f) = false ->
    base_of (f_ty f) = BSimple s ->
    Conforms x E k id (Elem n a m kids) -> Reads x E id d (Elem n a m kids) (OOk (VRec vs)) ->
    exists l, Forall2 (fun t v => visit_simple x s t = Ok v) (attr_texts f a) l /\
              nth_error vs i = collected x f l.
  Proof.
    intros k id td fs d n a m kids i f s vs Hs Hi Ha Ht Hb Hc Hr. apply (read_decode k) in Hr; [|exact Hc].
    eapply decode_attr_values; eassumption.
  Qed.

  (** ** C15 *)
  Lemma read_root_name : forall k id td fs d n n' a m m' kids o, struct_type E id td fs -> flattens fs = false ->
    (forall f, In f fs -> elem_field f -> flabel (t_attrs td) f <> elabel n') ->
    (d = 0 -> bad_namespace (t_attrs td) n = None /\ bad_namespace (t_attrs td) n' = None) ->
    Conforms x E k id (Elem n a m kids) ->
    (Reads x E id d (Elem n a m kids) o <-> Reads x E id d (Elem n' a m' kids) o).
  Proof.
    intros k id td fs d n n' a m m' kids o Hs Hf Hn Hb Hc.
    assert (Hc' : Conforms x E k id (Elem n' a m' kids)).
    { apply (conforms_struct k id td fs) in Hc; [|exact Hs]. apply (conforms_struct k id td fs); [exact Hs|].
      destruct Hc as (H1 & H2 & H3 & _). repeat split; auto; try congruence.
      right. apply field_for_none. exact Hn. }
    rewrite (read_decode k) by exact Hc. rewrite (read_decode k) by exact Hc'.
    rewrite (decode_name x E _ _ _ id td fs n n' a m m' kids); [reflexivity|exact Hs|exact Hf|].
    intros Hd. apply Nat.eqb_eq in Hd. auto.
  Qed.

  (** ** C39 *)
  Lemma read_text : forall k id td fs d n a m kids i f vs, struct_type E id td fs ->
    nth_error fs i = Some f ->
    ya_text (f_attrs f) = true -> elem_field f ->
    (f_ty f = TBase (BSimple SString) \/ f_ty f = TOpt (BSimple SString)) ->
    (forall n a m ks, In (Elem n a m ks) kids -> elabel n <> flabel (t_attrs td) f) ->
    Conforms x E k id (Elem n a m kids) -> Reads x E id d (Elem n a m kids) (OOk (VRec vs)) ->
    nth_error vs i = collected x f (texts kids).
  Proof.
    intros k id td fs d n a m kids i f vs Hs Hi Ht [Ha Hfl] Hty Hno Hc Hr. apply (read_decode k) in Hr; [|exact Hc].
    eapply decode_text; eassumption.
  Qed.
End Reads.

(** ** Same children up to order *)
Lemma labelled_self : forall n a m c, labelled (elabel n) (Elem n a m c) = true.
Proof. intros; apply label_eqb_eq; reflexivity. Qed.

Lemma reordered_cons : forall ra fs c l l', reordered ra fs l l' -> reordered ra fs (c :: l) (c :: l').
Proof.
  intros ra fs c l l' H; induction H as [l|pre a b post Hsw|l l' l'' _ IH1 _ IH2].
  - apply ro_refl.
  - apply (ro_swap ra fs (c :: pre)); assumption.
  - eapply ro_trans; eassumption.
Qed.

Lemma move_front : forall ra fs c pre post, (forall b, In b pre -> may_swap ra fs c b) ->
  reordered ra fs (c :: pre ++ post) (pre ++ c :: post).
Proof.
  intros ra fs c pre; induction pre as [|b pre IH]; intros post H; [apply ro_refl|].
  cbn [app]. eapply ro_trans.
  - apply (ro_swap ra fs [] c b). apply H; left; reflexivity.
  - cbn [app]. apply reordered_cons. apply IH. intros; apply H; right; assumption.
Qed.

Lemma filter_split : forall p c (ks r : list node), filter p ks = c :: r ->
  exists pre post, ks = pre ++ c :: post /\ (forall b, In b pre -> p b = false).
Proof.
  intros p c ks; induction ks as [|b ks IH]; intros r H; [discriminate|].
  cbn [filter] in H. destruct (p b) eqn:Hb.
  - inversion H; subst. exists [], ks. split; [reflexivity|intros ? []].
  - destruct (IH r H) as (pre & post & -> & Hp). exists (b :: pre), post. split; [reflexivity|].
    intros z [<-|Hz]; auto.
Qed.

Lemma filter_none : forall (p : node -> bool) l, (forall b, In b l -> p b = false) -> filter p l = [].
Proof.
  intros p l; induction l as [|b l IH]; intros H; [reflexivity|]. cbn [filter].
  rewrite (H b (or_introl eq_refl)). apply IH. intros; apply H; right; assumption.
Qed.

(** Dropping the first of a class on both sides keeps the filters equal. *)
Lemma drop_same : forall (p : node -> bool) c kids pre post,
  (p c = true -> forall b, In b pre -> p b = false) ->
  filter p (c :: kids) = filter p (pre ++ c :: post) -> filter p kids = filter p (pre ++ post).
Proof.
  intros p c kids pre post H He. rewrite !filter_app in *. cbn [filter] in *. destruct (p c) eqn:Hc; [|exact He].
  rewrite (filter_none p pre (H eq_refl)) in *. cbn [app] in *. injection He as He. exact He.
Qed.

Lemma left_label : forall ra fs n a m c n' a' m' c', elabel n = elabel n' ->
  is_left ra fs (Elem n a m c) = is_left ra fs (Elem n' a' m' c').
Proof. intros. cbn [is_left]. unfold field_for. rewrite H. reflexivity. Qed.

Definition sort_of (c : node) : node -> bool :=
  match c with Elem n _ _ _ => labelled (elabel n) | Txt _ => is_text end.
Lemma sort_self : forall c, sort_of c c = true.
Proof. intros [n a m c|s]; [apply labelled_self|reflexivity]. Qed.
Lemma labelled_eq : forall l n a m c, labelled l (Elem n a m c) = true <-> elabel n = l.
Proof. intros. apply label_eqb_eq. Qed.
Lemma sort_left : forall ra fs c b, sort_of c b = true -> is_left ra fs b = is_left ra fs c.
Proof.
  intros ra fs [n a m c|s] [n' a' m' c'|s'] H; cbn [sort_of] in H; try discriminate; [|reflexivity].
  apply labelled_eq in H. apply left_label. exact H.
Qed.

Lemma same_but_order_reordered : forall ra fs kids kids',
  (flattens fs = true -> filter (is_left ra fs) kids = filter (is_left ra fs) kids') ->
  (forall f s n a m c, In f fs -> ya_text (f_attrs f) = true -> In (Txt s) kids -> In (Elem n a m c) kids ->
     flabel ra f <> elabel n) ->
  same_but_order kids kids' -> reordered ra fs kids kids'.
Proof.
  intros ra fs kids; induction kids as [|c kids IH]; intros kids' Hf Hq (Ht & Hl).
  - destruct kids' as [|[n a m ks|s] kids']; [apply ro_refl| |discriminate].
    specialize (Hl (elabel n)). cbn [filter] in Hl. rewrite labelled_self in Hl. discriminate.
  - assert (Hs : filter (sort_of c) (c :: kids) = filter (sort_of c) kids')
      by (destruct c as [n a m ks|s]; [apply Hl|exact Ht]).
    pose proof Hs as Hn. cbn [filter] in Hn. rewrite sort_self in Hn. symmetry in Hn.
    destruct (filter_split _ _ _ _ Hn) as (pre & post & -> & Hp). clear Hn.
    assert (Hd : forall p, (forall b, p c = true -> p b = true -> sort_of c b = true) ->
              filter p (c :: kids) = filter p (pre ++ c :: post) -> filter p kids = filter p (pre ++ post)).
    { intros p H. apply drop_same. intros Hc b Hb. specialize (Hp b Hb). specialize (H b Hc).
      destruct (p b); [rewrite H in Hp by reflexivity; discriminate|reflexivity]. }
    assert (Hpl : flattens fs = true -> is_left ra fs c = true -> forall b, In b pre -> is_left ra fs b = false).
    { intros Hfl Hc. specialize (Hf Hfl). cbn [filter] in Hf. rewrite Hc in Hf. symmetry in Hf.
      destruct (filter_split _ _ _ _ Hf) as (pre' & post' & He & Hp').
      assert (Hpre : pre = pre').
      { clear - He Hp Hp' Hc. revert pre' He Hp'. induction pre as [|b pre IHp]; intros pre' He Hp'.
        - destruct pre' as [|b' pre']; [reflexivity|]. injection He as <- He.
          specialize (Hp' c (or_introl eq_refl)). congruence.
        - destruct pre' as [|b' pre'].
          + injection He as -> He. specialize (Hp c (or_introl eq_refl)). rewrite sort_self in Hp. discriminate.
          + injection He as -> He. f_equal. apply IHp; [| exact He |]; intros; [apply Hp|apply Hp']; right; assumption. }
      subst pre'. exact Hp'. }
    assert (Hin : forall n a m k, In (Elem n a m k) pre -> exists a' m' k' n', elabel n' = elabel n /\ In (Elem n' a' m' k') (c :: kids)).
    { intros n a m k Hin. specialize (Hl (elabel n)).
      assert (Hi : In (Elem n a m k) (filter (labelled (elabel n)) (c :: kids))).
      { rewrite Hl. apply filter_In. split; [apply in_or_app; left; exact Hin|apply labelled_self]. }
      apply filter_In in Hi. destruct Hi as [Hi _]. exists a, m, k, n. split; [reflexivity|exact Hi]. }
    assert (Hit : forall s, In (Txt s) pre -> In (Txt s) (c :: kids)).
    { intros s Hi. assert (H : In (Txt s) (filter is_text (c :: kids))).
      { rewrite Ht. apply filter_In. split; [apply in_or_app; left; exact Hi|reflexivity]. }
      apply filter_In in H. apply H. }
    eapply ro_trans; [apply reordered_cons; apply (IH (pre ++ post))|apply move_front].
    + intros Hfl. specialize (Hf Hfl). specialize (Hpl Hfl). revert Hf. apply drop_same. exact Hpl.
    + intros f s n a m k Hff Hft H1 H2. eapply Hq; [eassumption..|right; eassumption|right; eassumption].
    + split.
      * revert Ht. apply Hd. intros [|] H1 H2; try discriminate. destruct c; [discriminate|reflexivity].
      * intros l. specialize (Hl l). revert Hl. apply Hd. intros [n' a' m' k'|s'] H1 H2; [|discriminate].
        destruct c as [n a m k|s]; [|discriminate]. apply labelled_eq in H1. apply labelled_eq in H2.
        cbn [sort_of]. apply labelled_eq. congruence.
    + intros b Hb. pose proof (Hp b Hb) as Hpb. split.
      * destruct c as [n a m k|s]; destruct b as [bn ba bm bk|bs].
        -- intros He. cbn [sort_of] in Hpb. apply Bool.not_true_iff_false in Hpb. apply Hpb. apply labelled_eq. congruence.
        -- intros f Hff Hft. eapply Hq; [eassumption..|exact (Hit _ Hb)|left; reflexivity].
        -- intros f Hff Hft. destruct (Hin _ _ _ _ Hb) as (a' & m' & k' & n' & He & Hi). rewrite <- He.
           eapply Hq; [eassumption..|left; reflexivity|exact Hi].
        -- discriminate.
      * intros Hfl. destruct (is_left ra fs c) eqn:Hc; [right; apply (Hpl Hfl eq_refl _ Hb)|left; reflexivity].
Qed.

Lemma read_same_but_order : forall x E k id td fs d n a m kids kids' v, struct_type E id td fs ->
  (flattens fs = true -> filter (is_left (t_attrs td) fs) kids = filter (is_left (t_attrs td) fs) kids') ->
  (forall f s kn ka km kk, In f fs -> ya_text (f_attrs f) = true -> In (Txt s) kids -> In (Elem kn ka km kk) kids ->
     flabel (t_attrs td) f <> elabel kn) ->
  same_but_order kids kids' ->
  Conforms x E k id (Elem n a m kids) -> Reads x E id d (Elem n a m kids) (OOk v) ->
  Conforms x E k id (Elem n a m kids') /\ Reads x E id d (Elem n a m kids') (OOk v).
Proof.
  intros x E k id td fs d n a m kids kids' v Hs Hf Hq Ho Hc Hr.
  eapply read_reordered; eauto. apply same_but_order_reordered; assumption.
Qed.

(** ** C15: rejected namespaces, on any input *)
Lemma bad_namespace_found : forall ra n u, n_ns n = Some u ->
  (forall p, ya_prefix ra = Some p -> ns_get (ya_namespaces ra) p <> Some u) ->
  bad_namespace ra n = Some ("bad namespace for " +++ n_local n +++ ", found " +++ u).
Proof.
  intros ra n u Hn Hp. unfold bad_namespace. rewrite Hn. destruct (ya_prefix ra) as [p|]; [|reflexivity].
  specialize (Hp p eq_refl). destruct (ns_get (ya_namespaces ra) p) as [v|]; [|reflexivity].
  destruct (String.eqb v u) eqn:He; [|reflexivity]. apply String.eqb_eq in He. congruence.
Qed.

Lemma bad_namespace_none : forall ra n,
  (forall u, n_ns n = Some u -> exists p, ya_prefix ra = Some p /\ ns_get (ya_namespaces ra) p = Some u) ->
  bad_namespace ra n = None.
Proof.
  intros ra n H. unfold bad_namespace. destruct (n_ns n) as [u|]; [|reflexivity].
  destruct (H u eq_refl) as (p & -> & ->). rewrite String.eqb_refl. reflexivity.
Qed.

Lemma read_bad_namespace : forall x E id td fs n a m u fuel evs tail f, struct_type E id td fs ->
  n_ns n = Some u ->
  (forall p, ya_prefix (t_attrs td) = Some p -> ns_get (ya_namespaces (t_attrs td)) p <> Some u) ->
  1 <= fuel ->
  filter (fun e => match e with EStartDoc | EPI _ | EComment _ => false | _ => true end) evs
    = EStart n a m :: tail ->
  from_events x E fuel id (Stream evs f) = OErr ("bad namespace for " +++ n_local n +++ ", found " +++ u).
Proof.
  intros x E id td fs n a m u fuel evs tail f [Htd Hb] Hu Hp Hf Hv.
  pose proof (bad_namespace_found _ _ _ Hu Hp) as He.
  unfold from_events, d_init. rewrite (proj1 (run_view _ _ _)). unfold view. cbn [d_depth d_src d_peeked s_evs s_fin app].
  rewrite <- strip_vis, Hv. destruct fuel as [|fuel]; [lia|]. cbn [de]. unfold de_body. rewrite Htd, Hb.
  unfold de_struct. rewrite vrun_peek_ev, vrun_Depth. rewrite Nat.eqb_refl, namespace_check_bad, He. reflexivity.
Qed.

(** ** C19 *)
Lemma read_consumes : forall x E k id td fs d n a m kids v, struct_type E id td fs ->
  Conforms x E k id (Elem n a m kids) -> Reads x E id d (Elem n a m kids) (OOk v) ->
  exists N, forall fuel, N <= fuel -> forall evs tail f A (K : value -> prog A),
    filter (fun e => match e with EStartDoc | EPI _ | EComment _ => false | _ => true end) evs
      = flat (Elem n a m kids) ++ tail ->
    fst (run (bind (De.de x E fuel id) K) (DState d (Stream evs f) None)) =
    fst (run (K v) (DState (S d) (Stream (EEnd n :: tail) f) None)).
Proof.
  intros x E k id td fs d n a m kids v Hs Hc Hr.
  exists (len (Elem n a m kids) + 6 + 4 * k). intros fuel Hf evs tail f A K Hv.
  apply (read_decode x E k) in Hr; [|exact Hc].
  pose proof (value_works x E k fuel id _ Hc ltac:(lia) d f tail) as Hw.
  rewrite strip_vis in Hv. rewrite (run_flat _ _ _ _ _ _ _ Hv), vrun_bind.
  rewrite Hr in Hw. cbn [agrees] in Hw. rewrite Hw.
  rewrite (proj1 (run_view _ (K v) _)). unfold view. cbn [d_depth d_src d_peeked s_evs s_fin app].
  assert (Htail : vis tail = tail).
  { assert (H : vis (vis evs) = vis evs).
    { unfold vis. clear. induction evs as [|e evs IH]; [reflexivity|]. cbn [filter].
      destruct (visible e) eqn:He; [cbn [filter]; rewrite He, IH; reflexivity|exact IH]. }
    rewrite Hv in H. unfold vis in H. rewrite filter_app in H. fold (vis (flat (Elem n a m kids))) in H.
    rewrite vis_flat in H. apply app_inv_head in H. exact H. }
  change (vis (EEnd n :: tail)) with (EEnd n :: vis tail). rewrite Htail.
  destruct Hs as [Htd Hb]. unfold left_over. rewrite Htd, Hb. reflexivity.
Qed.
