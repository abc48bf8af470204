(** * Written documents are well-formed. *)
From Coq Require Import Permutation.
From Verif Require Import Str Num Xml XmlText Reader Schema De Ser SpecTree SpecText SpecNum SpecTyped SpecStruct SpecSer SpecValue SpecEnc
  TextProofs EncProofs SerProofs SpecRound RoundNames SpecOut.
Open Scope list_scope.

(** ** Scopes and names *)
Definition covers (st : nsstack) (ra : yattr) : Prop :=
  forall p, ns_get (ya_namespaces ra) p <> None -> ya_default_namespace ra <> Some p -> nss_get st p <> None.

Lemma nss_get_some : forall st p m u, In m st -> In (p, u) m -> nss_get st p <> None.
Proof.
  induction st as [|k st IH]; intros p m u Hm Hi; [destruct Hm|]. cbn [nss_get]. destruct (ns_get k p) eqn:Hk; [discriminate|].
  destruct Hm as [<-|Hm]; [|eapply IH; eauto]. destruct (ns_in_get _ _ _ Hi) as [v Hv]. congruence.
Qed.
Lemma nss_get_more : forall m st p, nss_get st p <> None -> nss_get (m :: st) p <> None.
Proof. intros m st p H. cbn [nss_get]. destruct (ns_get m p); [discriminate|exact H]. Qed.

Lemma declared_covers : forall st ra ns, covers (declare st (ns_extend (declared ra) ns) :: st) ra.
Proof.
  intros st ra ns p Hp Hd. destruct (ns_get (ya_namespaces ra) p) as [u|] eqn:Hg; [|congruence].
  apply ns_get_in in Hg. apply own_in in Hg.
  replace (opt_eqb (ya_default_namespace ra) (Some p)) with false in Hg.
  2:{ symmetry. destruct (opt_eqb (ya_default_namespace ra) (Some p)) eqn:He; [|reflexivity]. apply opt_eqb_eq in He. contradiction. }
  destruct (ns_extend_has _ [] _ _ Hg) as [w Hw]. change (ns_extend [] (own_bindings ra)) with (declared ra) in Hw.
  apply (ns_extend_keeps ns) in Hw. destruct (declare_scope st _ _ _ Hw) as (m & w' & Hm & Hi & _).
  eapply nss_get_some; eauto.
Qed.

Lemma wellnamed_good : forall st ra p l, wellnamed ra p l -> covers st ra ->
  good_name (qname (prefix_part (ya_default_namespace ra) p +++ l)) /\
  bound st (qname (prefix_part (ya_default_namespace ra) p +++ l)) /\
  n_local (qname (prefix_part (ya_default_namespace ra) p +++ l)) = l /\
  (forall q, n_prefix (qname (prefix_part (ya_default_namespace ra) p +++ l)) = Some q ->
     p = Some q /\ ya_default_namespace ra <> Some q /\ ns_get (ya_namespaces ra) q <> None).
Proof.
  intros st ra p l [Hl Hp] Hc. unfold prefix_part. destruct (opt_eqb (ya_default_namespace ra) p) eqn:He.
  - cbn [String.append]. rewrite qname_plain by apply Hl. split; [apply good_plain; exact Hl|].
    split; [exact I|]. split; [reflexivity|]. discriminate.
  - destruct p as [q|].
    + destruct Hp as [Hq Hn]. rewrite sapp_assoc, qname_prefixed by apply Hq. split; [apply good_prefixed; assumption|].
      assert (Hd : ya_default_namespace ra <> Some q) by (intros Hx; rewrite Hx in He; cbn in He; rewrite String.eqb_refl in He; discriminate).
      split; [|split; [reflexivity|intros q' Hq'; injection Hq' as <-; auto]].
      unfold bound. cbn [n_prefix]. unfold lookup_prefix. destruct (String.eqb q "xml"); [discriminate|]. apply Hc; assumption.
    + cbn [String.append]. rewrite qname_plain by apply Hl. split; [apply good_plain; exact Hl|].
      split; [exact I|]. split; [reflexivity|]. discriminate.
Qed.

(** ** Legal trees *)
Definition legal_tree (w : wnode) : Prop := forall e, In e (wtree w) -> legal_event e.
Definition legal_forest (ts : list wnode) : Prop := forall w, In w ts -> legal_tree w.
Lemma legal_app : forall a b, legal_forest (a ++ b) -> legal_forest a /\ legal_forest b.
Proof. intros a b H; split; intros w Hw; apply H; apply in_or_app; auto. Qed.
Lemma legal_kids : forall n a m ks, legal_tree (WElem n a m ks) -> legal_forest ks /\ forall t, In t a -> legal (at_value t) = true.
Proof.
  intros n a m ks H. split.
  - intros w Hw e He. apply H. cbn [wtree]. right. apply in_or_app. left. apply in_flat_map. eauto.
  - apply (H (WStart n a m)). left. reflexivity.
Qed.

Definition all_writable (st : nsstack) (ts : list wnode) : Prop := forall w, In w ts -> Writable st w.
Lemma all_app : forall st a b, all_writable st a -> all_writable st b -> all_writable st (a ++ b).
Proof. intros st a b Ha Hb w Hw. apply in_app_or in Hw. destruct Hw; auto. Qed.

Lemma oconcat_writable : forall A (f : A -> option (list wnode)) st l ts, oconcat f l = Some ts -> legal_forest ts ->
  (forall a p, In a l -> f a = Some p -> legal_forest p -> all_writable st p) -> all_writable st ts.
Proof.
  induction l as [|a l IH]; intros ts He Hl Hf; cbn [oconcat] in He; [injection He as <-; intros ? []|].
  apply oapp_some in He. destruct He as (p & q & Ha & Hq & ->). apply legal_app in Hl. destruct Hl as [H1 H2].
  apply all_app; [apply (Hf a p); auto; left; reflexivity|]. apply IH; auto. intros b r Hb. apply Hf. right. exact Hb.
Qed.

Lemma text_writable : forall st t, legal_tree (WTxt t) -> Writable st (WTxt t).
Proof. intros st t H. constructor. apply (H (WChars t)). left. reflexivity. Qed.
Lemma plain_elem_writable : forall st n ks, good_name n -> bound st n -> legal_forest ks ->
  all_writable ([] :: st) ks -> Writable st (WElem n [] [] ks).
Proof.
  intros st n ks Hn Hb Hl Hk. change (@nil (string * string)) with (declare st []) in Hk.
  constructor; [exact Hn| |intros ? []|constructor|intros ? []|exact Hk].
  unfold bound in *. destruct (n_prefix n); [|exact I]. unfold lookup_prefix in *. destruct (String.eqb s "xml"); [discriminate|].
  apply nss_get_more. exact Hb.
Qed.
Lemma text_elem_writable : forall st q t, good_name (qname q) -> bound st (qname q) -> legal_tree (text_elem q t) -> Writable st (text_elem q t).
Proof.
  intros st q t Hn Hb Hl. apply legal_kids in Hl. destruct Hl as [Hl _].
  apply plain_elem_writable; auto. intros w [<-|[]]. apply text_writable. apply Hl. left. reflexivity.
Qed.

Section Out.
  Variable x : ext.
  Variable E : env.
  Hypothesis Hwf : writable_types E.
  Notation enc := (encode x E).
  Notation enca := (encode_attrs x E).

  Definition name_ok (st : nsstack) (o : option string) : Prop :=
    match o with Some q => good_name (qname q) /\ bound st (qname q) | None => True end.
  Definition how_ok (st : nsstack) (h : how) : Prop := match h with Under o => name_ok st o | Inside => True end.
  (** The namespaces of all types written in one element are in scope. *)
  Definition covers_in (st : nsstack) (id : nat) : Prop := forall td, part_of E id td -> covers st (t_attrs td).
  Definition out_under (v : value) : Prop := forall id o st ts, enc id v (Under o) = Some ts -> name_ok st o ->
    legal_forest ts -> all_writable st ts.
  Definition out_inside (v : value) : Prop := forall id st ts,
    enc id v Inside = Some ts -> covers_in st id -> legal_forest ts -> all_writable st ts.
  (** The start tag of a value: attributes, and the namespaces it declares. *)
  Definition out_attrs (v : value) : Prop := forall id a ns, enca id v = Some (a, ns) ->
    (forall pu, In pu ns -> In pu (bindings E)) /\
    (forall td p u, part_of E id td -> In (p, u) (own_bindings (t_attrs td)) -> exists w, In (p, w) ns) /\
    (forall st, covers_in st id -> (forall t, In t a -> legal (at_value t) = true) ->
      (forall t, In t a -> good_attr st t /\ tag_name E id (n_local (at_name t))) /\
      NoDup (map (fun t => n_local (at_name t)) a)).

  Variable N : nat.
  Hypothesis IHu : forall v, height v < N -> out_under v.
  Hypothesis IHi : forall v, height v < N -> out_inside v.
  Hypothesis IHa : forall v, height v < N -> out_attrs v.

  Lemma name_ok_more : forall st m n, bound st n -> bound (m :: st) n.
  Proof.
    intros st m n H. unfold bound in *. destruct (n_prefix n); [|exact I]. unfold lookup_prefix in *. destruct (String.eqb s "xml"); [discriminate|].
    apply nss_get_more. exact H.
  Qed.

  Lemma simple_writable : forall st q s v ts, enc_simple x q s v = Some ts -> good_name (qname q) -> bound st (qname q) ->
    legal_forest ts -> all_writable st ts.
  Proof.
    intros st q s v ts He Hg Hb Hl. apply omap_some in He. destruct He as (t & _ & ->). intros w [<-|[]].
    apply text_elem_writable; auto. apply Hl. left. reflexivity.
  Qed.

  Lemma field_writable : forall st ra self f v ts, covers st ra ->
    wellnamed ra (ya_prefix (f_attrs f)) (field_name f) ->
    (forall id, flat_field f = true -> base_of (f_ty f) = BUser id -> covers_in st id) ->
    height v < N -> enc_field x enc ra self f v = Some ts -> legal_forest ts -> all_writable st ts.
  Proof.
    intros st ra self f v ts Hc Hn Hfl Hh He Hl.
    destruct (wellnamed_good st ra _ _ Hn Hc) as (Hg & Hb & _).
    change (prefix_part (ya_default_namespace ra) (ya_prefix (f_attrs f)) +++ field_name f) with (field_qname ra f) in *.
    unfold enc_field in He. destruct (ya_attribute (f_attrs f)) eqn:Hat; [injection He as <-; intros ? []|].
    assert (Hu : forall id w p, base_of (f_ty f) = BUser id -> height w < N ->
      enc id w (if ya_flatten (f_attrs f) then Inside else Under (Some (field_qname ra f))) = Some p -> legal_forest p -> all_writable st p).
    { intros id w p Hid Hw Hp Hlp. destruct (ya_flatten (f_attrs f)) eqn:Hff.
      - apply (IHi w Hw id st p Hp); [|exact Hlp]. apply Hfl; [|exact Hid]. unfold flat_field. rewrite Hff, Hat. reflexivity.
      - apply (IHu w Hw id (Some (field_qname ra f)) st p Hp); [split; assumption|exact Hlp]. }
    clear Hfl.
    destruct (ya_text (f_attrs f)).
    { assert (exists t, ts = [WTxt t]) as [t ->].
      { destruct (f_ty f) as [[[| | |]|]|[[| | |]|]|b|b]; try discriminate.
        - destruct v; try discriminate. injection He as <-. eauto.
        - destruct v as [| | | | |[[]|]| | |]; try discriminate; injection He as <-; eauto. }
      intros w [<-|[]]. apply text_writable. apply Hl. left. reflexivity. }
    destruct (left_out x self v f true); [injection He as <-; intros ? []|].
    destruct (ya_cdata (f_attrs f)).
    { destruct (f_ty f) as [[[| | |]|]|b|b|b]; try discriminate. destruct v; try discriminate. injection He as <-.
      intros w [<-|[]]. specialize (Hl _ (or_introl eq_refl)). apply legal_kids in Hl. destruct Hl as [Hl _].
      apply plain_elem_writable; auto. intros w [<-|[]].
      destruct (Hl _ (or_introl eq_refl) (WCData s) (or_introl eq_refl)) as [H1 H2]. constructor; assumption. }
    destruct (f_ty f) as [[s|id]|[s|id]|[s|id]|[s|id]].
    - eapply simple_writable; eauto.
    - apply (Hu id v ts); auto.
    - destruct v as [| | | | |[w|]| | |]; try discriminate; [eapply simple_writable; eauto|injection He as <-; intros ? []].
    - destruct v as [| | | | |[w|]| | |]; try discriminate; [apply (Hu id w ts); auto; cbn [height] in Hh; lia|injection He as <-; intros ? []].
    - destruct v; try discriminate. eapply oconcat_writable; eauto. intros a p Ha Hp Hlp. eapply simple_writable; eauto.
    - destruct v; try discriminate. eapply oconcat_writable; eauto. intros a p Ha Hp Hlp. apply (Hu id a p); auto.
      pose proof (height_in a l Ha). cbn [height] in Hh. lia.
    - destruct v as [| | | | |[[| | | | | |l| |]|]| | |]; try discriminate; [|injection He as <-; intros ? []].
      eapply oconcat_writable; eauto. intros a p Ha Hp Hlp. eapply simple_writable; eauto.
    - destruct v as [| | | | |[[| | | | | |l| |]|]| | |]; discriminate.
  Qed.

  Lemma fields_writable : forall st ra self fs vs ts, covers st ra ->
    (forall f, In f fs -> wellnamed ra (ya_prefix (f_attrs f)) (field_name f) /\
       forall id, flat_field f = true -> base_of (f_ty f) = BUser id -> covers_in st id) ->
    (forall v, In v vs -> height v < N) -> enc_fields x enc ra self fs vs = Some ts -> legal_forest ts -> all_writable st ts.
  Proof.
    intros st ra self. induction fs as [|f fs IH]; intros [|v vs] ts Hc Hn Hh He Hl; try discriminate; cbn [enc_fields] in He.
    - injection He as <-. intros ? [].
    - apply oapp_some in He. destruct He as (p & q & Hp & Hq & ->). apply legal_app in Hl. destruct Hl as [H1 H2].
      destruct (Hn f (or_introl eq_refl)) as [Hn1 Hn2].
      apply all_app; [eapply field_writable; eauto; apply Hh; left; reflexivity|].
      apply (IH vs q Hc); auto; intros; [apply Hn|apply Hh]; right; assumption.
  Qed.

  Lemma item_writable : forall st ra b v q ts, covers st ra ->
    good_name (qname q) -> bound st (qname q) -> height v < N ->
    enc_item x enc b v (Under (Some q)) = Some ts -> legal_forest ts -> all_writable st ts.
  Proof.
    intros st ra b v q ts Hc Hg Hb Hh He Hl. destruct b as [s|id]; cbn [enc_item] in He.
    - destruct s; try discriminate; apply omap_some in He; destruct He as (tx & _ & ->); intros w [<-|[]]; apply text_writable, Hl; left; reflexivity.
    - eapply IHu; eauto. split; assumption.
  Qed.

  Lemma named_writable : forall st ra fs vs ts, covers st ra ->
    (forall f, In f fs -> wellnamed ra (ya_prefix (f_attrs f)) (field_name f)) ->
    (forall v, In v vs -> height v < N) -> enc_named_fields x enc ra fs vs = Some ts -> legal_forest ts -> all_writable st ts.
  Proof.
    intros st ra. induction fs as [|f fs IH]; intros [|v vs] ts Hc Hn Hh He Hl; try discriminate; cbn [enc_named_fields] in He.
    - injection He as <-. intros ? [].
    - apply oapp_some in He. destruct He as (p & q & Hp & Hq & ->). apply legal_app in Hl. destruct Hl as [H1 H2].
      apply all_app; [|apply (IH vs q Hc); auto; intros; [apply Hn|apply Hh]; right; assumption].
      destruct (wellnamed_good st ra _ _ (Hn f (or_introl eq_refl)) Hc) as (Hg & Hb & _).
      change (prefix_part (ya_default_namespace ra) (ya_prefix (f_attrs f)) +++ field_name f) with (field_qname ra f) in *.
      pose proof (Hh v (or_introl eq_refl)) as Hv. unfold enc_named_field in Hp. destruct (f_ty f) as [[s|id]|b|b|b].
      + eapply simple_writable; eauto.
      + eapply IHu; eauto. split; assumption.
      + destruct v; try discriminate. injection Hp as <-. intros ? [].
      + destruct v; try discriminate. eapply oconcat_writable; eauto. intros a r Ha Hr Hlr. apply (item_writable st ra b a (field_qname ra f) r); auto.
        pose proof (height_in a l Ha). cbn [height] in Hv. lia.
      + destruct v; try discriminate. injection Hp as <-. intros ? [].
  Qed.

  Lemma covers_none : forall st ra, ya_namespaces ra = [] -> covers st ra.
  Proof. intros st ra H p Hp. rewrite H in Hp. contradiction. Qed.

  Lemma bare_covers : forall st id, bare E (BUser id) -> covers_in st id.
  Proof. intros st id H td Hp. apply covers_none. exact (H id td eq_refl Hp). Qed.

  Lemma payload_item_writable : forall st q b v ts, bare E b -> good_name (qname q) -> bound st (qname q) ->
    height v < N -> enc_payload_item x enc q b v = Some ts -> legal_forest ts -> all_writable st ts.
  Proof.
    intros st q b v ts Hbp Hg Hb Hh He Hl. apply omap_some in He. destruct He as (ks & He & ->). intros w [<-|[]].
    specialize (Hl _ (or_introl eq_refl)). apply legal_kids in Hl. destruct Hl as [Hl _]. apply plain_elem_writable; auto.
    destruct b as [s|id].
    - assert (exists t, ks = [WTxt t]) as [t ->].
      { destruct s; [destruct v; try discriminate; injection He as <-; eauto|..]; cbn [enc_item] in He;
          apply omap_some in He; destruct He as (tx & _ & ->); eauto. }
      intros w [<-|[]]. apply text_writable, Hl. left. reflexivity.
    - assert (He' : enc id v Inside = Some ks) by (destruct v; exact He). clear He.
      eapply IHi; eauto. apply bare_covers. exact Hbp.
  Qed.

  Lemma content_writable : forall st h id td v ts, nth_error E id = Some td -> covers_in st id -> how_ok st h -> height v <= N ->
    enc_content x enc h td v = Some ts -> legal_forest ts -> all_writable st ts.
  Proof.
    intros st h id td v ts Htd Hci Hok Hh He Hl. pose proof (proj2 Hwf id td Htd) as Hw. unfold writable_type in Hw.
    unfold enc_content in He. destruct (t_body td) as [fs|vs d|k] eqn:Hb; [| |discriminate].
    all: assert (Hc : covers st (t_attrs td)) by (apply Hci, (part_self E id td Htd); intros k; rewrite Hb; discriminate).
    - destruct v as [| | | | | | |ws|]; try discriminate. destruct Hw as (_ & _ & Hf & _).
      eapply fields_writable; eauto.
      + intros f Hin. destruct (Hf f Hin) as (H1 & _ & H2). split; [exact H1|]. intros id' Hff Hid'. specialize (H2 Hff).
        destruct (f_ty f) as [b|b|b|b] eqn:Hty; cbn [base_of] in Hid', H2; subst b; try (apply bare_covers; exact H2).
        intros td' Hp. apply Hci. apply (part_flat E id td fs f id' td'); assumption.
      + intros w Hw. pose proof (height_in w ws Hw). cbn [height] in Hh. lia.
    - destruct v as [| | | | | | | |i ws]; try discriminate. destruct (nth_error vs i) as [vr|] eqn:Hv; [|discriminate].
      destruct Hw as (_ & _ & _ & Hf). specialize (Hf vr (nth_error_In _ _ Hv)). unfold enc_variant in He.
      assert (Hbelow : forall w, In w ws -> height w < N).
      { intros w Hin. pose proof (height_in w ws Hin). cbn [height] in Hh. lia. }
      destruct (v_body vr) as [|fl t|fs].
      + destruct ws; [|discriminate]. injection He as <-. destruct (ya_tag (t_attrs td)); [intros ? []|].
        intros w [<-|[]]. apply text_writable, Hl. left. reflexivity.
      + destruct ws as [|w [|]]; try discriminate. destruct Hf as (Hn & Hbp).
        destruct (wellnamed_good st _ _ _ Hn Hc) as (Hg & Hbd & _).
        change (prefix_part (ya_default_namespace (t_attrs td)) (ya_prefix (v_attrs vr)) +++ variant_name vr) with (variant_qname (t_attrs td) vr) in *.
        pose proof (Hbelow w (or_introl eq_refl)) as Hw. unfold enc_payload in He. destruct t as [[s|id']|b|b|b].
        * eapply simple_writable; eauto.
        * destruct (ya_flatten (v_attrs vr) || fl)%bool; [|eapply payload_item_writable; eauto].
          destruct h as [|o]; [apply (IHi w Hw id' st ts He); [apply bare_covers; exact Hbp|exact Hl]|].
          apply (IHu w Hw id' o st ts He Hok Hl).
        * destruct w as [| | | | |[w|]| | |]; try discriminate; [|injection He as <-; intros ? []].
          apply (payload_item_writable st (variant_qname (t_attrs td) vr) b w ts); auto. cbn [height] in Hw. lia.
        * destruct w; try discriminate. eapply oconcat_writable; eauto. intros a r Ha Hr Hlr. apply (payload_item_writable st (variant_qname (t_attrs td) vr) b a r); auto.
          pose proof (height_in a l Ha). cbn [height] in Hw. lia.
        * discriminate.
      + eapply named_writable; eauto.
  Qed.

  (** The start tag. *)
  Lemma good_locals : forall st a b, good_attr st a -> good_attr st b -> name_repr (at_name a) = name_repr (at_name b) ->
    n_local (at_name a) = n_local (at_name b).
  Proof. intros st a b ((_ & H1) & _) ((_ & H2) & _) He. rewrite He, H2 in H1. injection H1 as H1 _. symmetry. exact H1. Qed.

  Lemma distinct_names : forall a b (P Q : string -> Prop), (forall n, P n -> Q n -> False) ->
    (forall t, In t a -> P (n_local (at_name t))) -> (forall t, In t b -> Q (n_local (at_name t))) ->
    NoDup (map (fun t => n_local (at_name t)) a) -> NoDup (map (fun t => n_local (at_name t)) b) ->
    NoDup (map (fun t => n_local (at_name t)) (a ++ b)).
  Proof.
    intros a b P Q Hd. induction a as [|t a IH]; intros Ha Hb Na Nb; [exact Nb|]. cbn [app map] in *. inversion Na as [|? ? Hni Hnd]; subst.
    constructor; [|apply IH; auto; intros; apply Ha; right; assumption].
    rewrite map_app. intros Hi. apply in_app_or in Hi. destruct Hi as [Hi|Hi]; [contradiction|].
    apply in_map_iff in Hi. destruct Hi as (t' & He & Hin). apply (Hd (n_local (at_name t))); [apply Ha; left; reflexivity|].
    rewrite <- He. apply Hb. exact Hin.
  Qed.
  Lemma distinct_reprs : forall st a, (forall t, In t a -> good_attr st t) -> NoDup (map (fun t => n_local (at_name t)) a) ->
    NoDup (map (fun t => name_repr (at_name t)) a).
  Proof.
    intros st. induction a as [|t a IH]; intros Hg Hn; [constructor|]. cbn [map] in *. inversion Hn as [|? ? Hni Hnd]; subst.
    constructor; [|apply IH; [intros; apply Hg; right; assumption|exact Hnd]].
    intros Hi. apply in_map_iff in Hi. destruct Hi as (t' & He & Hin). apply Hni. apply in_map_iff. exists t'. split; [|exact Hin].
    apply (good_locals st t' t); [apply Hg; right; exact Hin|apply Hg; left; reflexivity|exact He].
  Qed.

  Lemma one_attr : forall ra self f v a, enc_attr x enc ra self f v = Some a ->
    a = [] \/ exists t, a = [Attr (qname (field_qname ra f)) t].
  Proof.
    intros ra self f v a He. unfold enc_attr in He.
    destruct (f_ty f) as [b|b|b|b]; [|destruct v as [| | | | |[w|]| | |]; try discriminate..|destruct v; discriminate].
    - apply omap_some in He. destruct He as (t & _ & ->). destruct (left_out _ _ _ _ _); eauto.
    - apply omap_some in He. destruct He as (t & _ & ->). destruct (left_out _ _ _ _ _); eauto.
    - injection He as <-. auto.
    - injection He as <-. auto.
  Qed.

  Lemma tag_namespaces : forall ra self fs vs own child ns,
    (forall v, In v vs -> height v < N) -> enc_tag x enc enca ra self fs vs = Some (own, child, ns) ->
    (forall pu, In pu ns -> In pu (bindings E)) /\
    (forall f id td p u, In f fs -> flat_field f = true -> f_ty f = TBase (BUser id) -> part_of E id td ->
       In (p, u) (own_bindings (t_attrs td)) -> exists w, In (p, w) ns).
  Proof.
    intros ra self. induction fs as [|f fs IH]; intros [|v vs] own child ns Hh He; try discriminate; cbn [enc_tag] in He.
    - injection He as <- <- <-. split; [intros ? []|intros ? ? ? ? ? []].
    - destruct (enc_tag x enc enca ra self fs vs) as [[[own' child'] ns']|] eqn:Ht; [|discriminate].
      destruct (IH vs own' child' ns' (fun w H => Hh w (or_intror H)) Ht) as [G1 G2].
      destruct (ya_attribute (f_attrs f)) eqn:Ha.
      { apply omap_some in He. destruct He as (a & He & Heq). injection Heq as -> -> ->. split; [exact G1|].
        intros g id td p u [<-|Hin] Hg; [unfold flat_field in Hg; rewrite Ha in Hg; discriminate|apply (G2 g id td p u Hin Hg)]. }
      destruct (ya_flatten (f_attrs f)) eqn:Hff.
      + destruct (f_ty f) as [[s|id0]|b|b|b] eqn:Hty.
        2:{ apply omap_some in He. destruct He as ([ca cn] & He & Heq). injection Heq as -> -> ->.
            destruct (IHa v (Hh v (or_introl eq_refl)) id0 ca cn He) as (K1 & K2 & _). split.
            - intros [p' u'] Hpu. apply ns_extend_in in Hpu. destruct Hpu; auto.
            - intros g id td p u [<-|Hin] Hg Hgt Hp Hpu.
              + rewrite Hty in Hgt. injection Hgt as <-. destruct (K2 td p u Hp Hpu) as [w Hw]. exists w. apply ns_extend_keeps. exact Hw.
              + destruct (G2 g id td p u Hin Hg Hgt Hp Hpu) as [w Hw]. apply (ns_extend_has ns' cn p w Hw). }
        all: injection He as <- <- <-; split; [exact G1|]; intros g id td p u [<-|Hin] Hg Hgt; [congruence|apply (G2 g id td p u Hin Hg Hgt)].
      + injection He as <- <- <-. split; [exact G1|]. intros g id td p u [<-|Hin] Hg Hgt; [|apply (G2 g id td p u Hin Hg Hgt)].
        unfold flat_field in Hg. rewrite Hff, andb_false_r in Hg. discriminate.
  Qed.

  Lemma tag_writable : forall st ra fs, covers st ra ->
    (forall f, In f fs -> wellnamed ra (ya_prefix (f_attrs f)) (field_name f) /\
         (ya_attribute (f_attrs f) = true -> field_name f <> "xmlns")) ->
    (forall f id, In f fs -> flat_field f = true -> f_ty f = TBase (BUser id) -> covers_in st id) ->
    (forall pu, In pu (own_bindings ra) -> good_decl pu) ->
    (forall i j f g n, nth_error fs i = Some f -> nth_error fs j = Some g -> gives E f n -> gives E g n -> i = j) ->
    forall self fs' vs' i own child ns,
    (forall j f, nth_error fs' j = Some f -> nth_error fs (i + j) = Some f) ->
    (forall v, In v vs' -> height v < N) ->
    enc_tag x enc enca ra self fs' vs' = Some (own, child, ns) ->
    (forall t, In t (own ++ child) -> legal (at_value t) = true) ->
    (forall t, In t (own ++ child) -> good_attr st t /\ exists f, In f fs' /\ gives E f (n_local (at_name t))) /\
    NoDup (map (fun t => n_local (at_name t)) (own ++ child)).
  Proof.
    intros st ra fs Hc Hf Hci Hd Hdist self. induction fs' as [|f fs' IH]; intros [|v vs'] i own child ns Hpos Hh He Hl; try discriminate; cbn [enc_tag] in He.
    - injection He as <- <- <-. split; [intros ? []|constructor].
    - destruct (enc_tag x enc enca ra self fs' vs') as [[[own' child'] ns']|] eqn:Ht; [|discriminate].
      pose proof (Hpos 0 f eq_refl) as H0. rewrite Nat.add_0_r in H0. pose proof (nth_error_In _ _ H0) as Hin.
      destruct (Hf f Hin) as (Hn & Hx).
      assert (Hpos' : forall j g, nth_error fs' j = Some g -> nth_error fs (S i + j) = Some g).
      { intros j g Hj. rewrite Nat.add_succ_comm. apply Hpos. exact Hj. }
      (* The attributes of this field beside those of the others. *)
      assert (Hadd : forall a, (forall t, In t a -> good_attr st t /\ gives E f (n_local (at_name t))) ->
        NoDup (map (fun t => n_local (at_name t)) a) ->
        (forall t, In t (own' ++ child') -> legal (at_value t) = true) ->
        (forall t, In t (a ++ own' ++ child') -> good_attr st t /\ exists g, In g (f :: fs') /\ gives E g (n_local (at_name t))) /\
        NoDup (map (fun t => n_local (at_name t)) (a ++ own' ++ child'))).
      { intros a Ha Na Hl'. destruct (IH vs' (S i) own' child' ns' Hpos' (fun w H => Hh w (or_intror H)) Ht Hl') as [G1 G2]. split.
        - intros t Hin'. apply in_app_or in Hin'. destruct Hin' as [Hin'|Hin'].
          + destruct (Ha t Hin') as [A B]. split; [exact A|]. exists f. split; [left; reflexivity|exact B].
          + destruct (G1 t Hin') as (A & g & B & C). split; [exact A|]. exists g. split; [right; exact B|exact C].
        - apply (distinct_names a (own' ++ child') (gives E f) (fun n => exists g, In g fs' /\ gives E g n)); auto; [|intros t Ht'; apply (Ha t Ht')|intros t Ht'; apply (G1 t Ht')].
          intros n Hn1 (g & Hg & Hn2). apply In_nth_error in Hg. destruct Hg as [j Hj]. pose proof (Hpos (S j) g Hj) as Hj'.
          assert (i = i + S j); [|lia]. apply (Hdist i (i + S j) f g n H0 Hj' Hn1 Hn2). }
      assert (Hskip : (forall t, In t (own' ++ child') -> legal (at_value t) = true) ->
        (forall t, In t (own' ++ child') -> good_attr st t /\ exists g, In g (f :: fs') /\ gives E g (n_local (at_name t))) /\
        NoDup (map (fun t => n_local (at_name t)) (own' ++ child'))).
      { intros Hl'. apply (Hadd []); [intros ? []|constructor|exact Hl']. }
      destruct (ya_attribute (f_attrs f)) eqn:Ha.
      + apply omap_some in He. destruct He as (a & He & Heq). injection Heq as -> -> ->. rewrite <- app_assoc in *.
        assert (Hl' : forall t, In t (own' ++ child') -> legal (at_value t) = true) by (intros t Hin'; apply Hl, in_or_app; right; exact Hin').
        destruct (one_attr ra self f v a He) as [->|[t ->]]; [exact (Hskip Hl')|].
        destruct (wellnamed_good st ra _ _ Hn Hc) as (Hg & Hb & Hloc & Hpre).
        change (prefix_part (ya_default_namespace ra) (ya_prefix (f_attrs f)) +++ field_name f) with (field_qname ra f) in *.
        apply Hadd; [|repeat constructor; intros []|exact Hl']. intros t' [<-|[]]. cbn [at_name]. split; [|left; split; [exact Ha|exact Hloc]].
        split; [exact Hg|]. split; [exact Hb|]. split; [apply (Hl _ (or_introl eq_refl))|]. cbn [at_name]. split.
        * intros Hq. destruct (Hpre _ Hq) as (_ & Hdn & Hnn). destruct (ns_get (ya_namespaces ra) "xmlns") as [u|] eqn:Hu; [|contradiction].
          apply ns_get_in, own_in in Hu.
          replace (opt_eqb (ya_default_namespace ra) (Some "xmlns")) with false in Hu.
          2:{ symmetry. destruct (opt_eqb (ya_default_namespace ra) (Some "xmlns")) eqn:Hq'; [|reflexivity]. apply opt_eqb_eq in Hq'. contradiction. }
          destruct (Hd _ Hu) as (_ & _ & Hxx & _). apply Hxx. reflexivity.
        * intros _. rewrite Hloc. apply Hx. reflexivity.
      + destruct (ya_flatten (f_attrs f)) eqn:Hff; [|injection He as <- <- <-; exact (Hskip Hl)].
        assert (Hflat : flat_field f = true) by (unfold flat_field; rewrite Hff, Ha; reflexivity).
        destruct (f_ty f) as [[s|id0]|b|b|b] eqn:Hty; try (injection He as <- <- <-; exact (Hskip Hl)).
        apply omap_some in He. destruct He as ([ca cn] & He & Heq). injection Heq as -> -> ->.
        destruct (IHa v (Hh v (or_introl eq_refl)) id0 ca cn He) as (_ & _ & K).
        destruct (K st (Hci f id0 Hin Hflat Hty)) as [K1 K2].
        { intros t Hin'. apply Hl. apply in_or_app. right. apply in_or_app. left. exact Hin'. }
        destruct (Hadd ca) as [J1 J2]; [|exact K2| |].
        * intros t Hin'. destruct (K1 t Hin') as [A B]. split; [exact A|]. right. split; [exact Hflat|]. exists id0. split; [exact Hty|exact B].
        * intros t Hin'. apply Hl. apply in_app_or in Hin'. apply in_or_app. destruct Hin' as [Hin'|Hin']; [left; exact Hin'|].
          right. apply in_or_app. right. exact Hin'.
        * pose proof (Permutation_app_swap_app ca own' child') as Hperm. split.
          -- intros t Hin'. apply J1. apply (Permutation_in t (Permutation_sym Hperm)). exact Hin'.
          -- apply (Permutation_NoDup (Permutation_map _ Hperm)). exact J2.
  Qed.

  Lemma start_namespaces : forall id td v own child ns, nth_error E id = Some td -> height v <= N ->
    enc_start x enc enca td v = Some (own, child, ns) ->
    (forall pu, In pu (ns_extend (declared (t_attrs td)) ns) -> In pu (bindings E)) /\
    (forall td' p u, part_of E id td' -> In (p, u) (own_bindings (t_attrs td')) -> exists w, In (p, w) (ns_extend (declared (t_attrs td)) ns)).
  Proof.
    intros id td v own child ns Htd Hh He.
    assert (Hself : forall p u, In (p, u) (own_bindings (t_attrs td)) -> exists w, In (p, w) (ns_extend (declared (t_attrs td)) ns)).
    { intros p u Hpu. destruct (ns_extend_has _ [] _ _ Hpu) as [w Hw]. change (ns_extend [] (own_bindings (t_attrs td))) with (declared (t_attrs td)) in Hw.
      exists w. apply ns_extend_keeps. exact Hw. }
    assert (Hdec : forall pu, In pu (declared (t_attrs td)) -> In pu (bindings E)).
    { intros pu Hpu. apply in_flat_map. exists td. split; [exact (nth_error_In _ _ Htd)|]. apply (declared_in (t_attrs td) pu). exact Hpu. }
    unfold enc_start in He. destruct (t_body td) as [fs|vs d|k] eqn:Hb; [| |discriminate].
    - destruct v as [| | | | | | |ws|]; try discriminate.
      destruct (tag_namespaces _ _ _ _ _ _ _ (fun w Hw => ltac:(pose proof (height_in w ws Hw); cbn [height] in Hh; lia)) He) as [G1 G2]. split.
      + intros [p' u'] Hpu. apply ns_extend_in in Hpu. destruct Hpu; auto.
      + intros td' p u Hp Hpu. inversion Hp as [? ? Ht' _|? td0 fs0 f id' ? Ht' Hb' Hf Hfl Hty Hp']; subst.
        * rewrite Htd in Ht'. injection Ht' as <-. exact (Hself p u Hpu).
        * rewrite Htd in Ht'. injection Ht' as <-. rewrite Hb in Hb'. injection Hb' as <-.
          destruct (G2 f id' td' p u Hf Hfl Hty Hp' Hpu) as [w Hw]. apply (ns_extend_has ns (declared (t_attrs td)) p w Hw).
    - destruct v as [| | | | | | | |i ws]; try discriminate. apply omap_some in He. destruct He as (vr & _ & Heq). injection Heq as -> -> ->. split.
      + intros pu Hpu. apply Hdec. exact Hpu.
      + intros td' p u Hp Hpu. inversion Hp as [? ? Ht' _|? td0 fs0 f id' ? Ht' Hb' Hf Hfl Hty Hp']; subst; [|congruence].
        rewrite Htd in Ht'. injection Ht' as <-. exact (Hself p u Hpu).
  Qed.

  Lemma start_covers : forall st id td v own child ns, nth_error E id = Some td -> height v <= N ->
    enc_start x enc enca td v = Some (own, child, ns) ->
    covers_in (declare st (ns_extend (declared (t_attrs td)) ns) :: st) id.
  Proof.
    intros st id td v own child ns Htd Hh He td' Hp p Hn Hdn. destruct (start_namespaces id td v own child ns Htd Hh He) as [_ G].
    destruct (ns_get (ya_namespaces (t_attrs td')) p) as [u|] eqn:Hg; [|congruence]. apply ns_get_in, own_in in Hg.
    replace (opt_eqb (ya_default_namespace (t_attrs td')) (Some p)) with false in Hg.
    2:{ symmetry. destruct (opt_eqb (ya_default_namespace (t_attrs td')) (Some p)) eqn:Hq; [|reflexivity]. apply opt_eqb_eq in Hq. contradiction. }
    destruct (G td' p u Hp Hg) as [w Hw]. destruct (declare_scope st _ _ _ Hw) as (m & w' & Hm & Hi & _). eapply nss_get_some; eauto.
  Qed.

  Lemma start_writable : forall st id td v own child ns, nth_error E id = Some td -> height v <= N -> covers_in st id ->
    enc_start x enc enca td v = Some (own, child, ns) -> (forall t, In t (own ++ child) -> legal (at_value t) = true) ->
    (forall t, In t (own ++ child) -> good_attr st t /\ tag_name E id (n_local (at_name t))) /\
    NoDup (map (fun t => n_local (at_name t)) (own ++ child)).
  Proof.
    intros st id td v own child ns Htd Hh Hci He Hl. pose proof (proj2 Hwf id td Htd) as Hw. unfold writable_type in Hw.
    assert (Hd : forall pu, In pu (own_bindings (t_attrs td)) -> good_decl pu).
    { intros pu Hpu. apply (proj1 Hwf). apply in_flat_map. exists td. split; [apply (nth_error_In _ _ Htd)|exact Hpu]. }
    unfold enc_start in He. destruct (t_body td) as [fs|vs d|k] eqn:Hb; [| |discriminate].
    - destruct v as [| | | | | | |ws|]; try discriminate. destruct Hw as (_ & _ & Hf & Hdist).
      destruct (tag_writable st (t_attrs td) fs) with (self := VRec ws) (fs' := fs) (vs' := ws) (i := 0) (own := own) (child := child) (ns := ns) as [G1 G2]; auto.
      + apply Hci. apply (part_self E id td Htd). intros k. rewrite Hb. discriminate.
      + intros f Hin. destruct (Hf f Hin) as (H1 & H2 & _). auto.
      + intros f id' Hin Hff Hty td' Hp. apply Hci. apply (part_flat E id td fs f id' td'); assumption.
      + intros w Hin. pose proof (height_in w ws Hin). cbn [height] in Hh. lia.
      + split; [|exact G2]. intros t Hin. destruct (G1 t Hin) as (A & f & Hfin & [[B ->]|(B & id' & C & D)]); (split; [exact A|]).
        * apply (tn_attr E id td fs f); assumption.
        * apply (tn_flat E id td fs f id'); assumption.
    - destruct v as [| | | | | | | |i ws]; try discriminate. apply omap_some in He.
      destruct He as (vr & Hvr & Heq). injection Heq as -> -> ->. cbn [app] in *. destruct Hw as (_ & _ & Htag & _).
      destruct (ya_tag (t_attrs td)) as [tg|] eqn:Htg; [|split; [intros ? []|constructor]].
      split; [|repeat constructor; intros []]. intros t [<-|[]]. destruct (Htag tg eq_refl) as [Hi Hx]. split.
      + split; [apply good_plain; exact Hi|]. split; [exact I|].
        split; [apply Hl; left; reflexivity|]. split; [discriminate|]. intros _. exact Hx.
      + apply (tn_tag E id td vs d tg); assumption.
  Qed.

  Lemma attrs_step : forall v, height v <= N -> out_attrs v.
  Proof.
    intros v Hh id a ns He. rewrite encode_attrs_eq in He. unfold enc_type_attrs in He.
    destruct (nth_error E id) as [td|] eqn:Htd; [|discriminate].
    destruct (t_body td) as [fs|vs d|k] eqn:Hb.
    3:{ injection He as <- <-. split; [intros ? []|]. split; [|intros st _ _; split; [intros ? []|constructor]].
        intros td' p u Hp _. inversion Hp as [? ? Ht' Hnk|? td0 fs0 f id' ? Ht' Hb' Hf Hfl Hty Hp']; subst; [|congruence].
        rewrite Htd in Ht'. injection Ht' as <-. destruct (Hnk k Hb). }
    all: apply omap_some in He; destruct He as ([[own child] ns'] & He & Heq); injection Heq as -> ->;
      destruct (start_namespaces id td v own child ns' Htd Hh He) as [G1 G2]; split; [exact G1|]; split; [exact G2|];
      intros st Hci Hl; apply (start_writable st id td v own child ns' Htd Hh Hci He Hl).
  Qed.

  Lemma under_step : forall v, height v <= N -> out_under v.
  Proof.
    intros v Hh id o st ts He Hn Hl. rewrite encode_eq in He. unfold enc_type in He.
    destruct (nth_error E id) as [td|] eqn:Htd; [|discriminate]. pose proof (proj2 Hwf id td Htd) as Hw. unfold writable_type in Hw.
    destruct (t_body td) as [fs|vs d|k] eqn:Hb.
    3:{ apply omap_some in He. destruct He as (t & _ & ->). intros w [<-|[]]. apply text_elem_writable; [| |apply Hl; left; reflexivity].
        - destruct o as [q|]; [apply Hn|]. cbn [opt_default]. rewrite qname_plain by apply Hw. apply good_plain. exact Hw.
        - destruct o as [q|]; [apply Hn|]. cbn [opt_default]. rewrite qname_plain by apply Hw. exact I. }
    all: destruct (ya_flatten (t_attrs td)) eqn:Hfl;
      [apply (content_writable st (Under o) id td v ts Htd); auto; apply bare_covers, Hw; reflexivity|].
    all: destruct (enc_start x enc enca td v) as [[[own child] ns]|] eqn:Hs; [|discriminate];
      destruct (enc_content x enc (Under o) td v) as [ks|] eqn:Hk; [|discriminate]; injection He as <-;
      intros w [<-|[]]; specialize (Hl _ (or_introl eq_refl)); apply legal_kids in Hl; destruct Hl as [Hl Hla];
      pose proof (start_covers st id td v own child ns Htd Hh Hs) as Hci;
      destruct (start_writable _ id td v own child ns Htd Hh Hci Hs Hla) as [G1 G2].
    all: assert (Hc : covers (declare st (ns_extend (declared (t_attrs td)) ns) :: st) (t_attrs td)) by
      (apply Hci, (part_self E id td Htd); intros k; rewrite Hb; discriminate).
    all: assert (Hroot : good_name (qname (opt_default (ser_root td) o)) /\
      bound (declare st (ns_extend (declared (t_attrs td)) ns) :: st) (qname (opt_default (ser_root td) o))) by
      (destruct o as [q|]; [split; [apply Hn|apply name_ok_more, Hn]|]; cbn [opt_default];
       destruct Hw as (Hw & _); destruct (wellnamed_good _ _ _ _ Hw Hc) as (K1 & K2 & _);
       unfold root_name in K1, K2; rewrite Hb in K1, K2; split; assumption).
    all: constructor; try apply Hroot; [intros t Ht; apply (G1 t Ht)|apply (distinct_reprs (declare st (ns_extend (declared (t_attrs td)) ns) :: st)); [intros t Ht; apply (G1 t Ht)|exact G2]| |].
    all: try (intros pu Hpu; apply declare_in in Hpu; apply (proj1 Hwf); apply (start_namespaces id td v own child ns Htd Hh Hs); exact Hpu).
    all: intros w Hin; apply (content_writable _ (Under o) id td v ks Htd Hci); auto;
      destruct o as [q|]; [split; [apply Hn|apply name_ok_more, Hn]|exact I].
  Qed.

  Lemma inside_step : forall v, height v <= N -> out_inside v.
  Proof.
    intros v Hh id st ts He Hci Hl. rewrite encode_eq in He. unfold enc_type in He.
    destruct (nth_error E id) as [td|] eqn:Htd; [|discriminate].
    destruct (t_body td) as [fs|vs d|k] eqn:Hb.
    - apply (content_writable st Inside id td v ts Htd Hci); auto. exact I.
    - apply (content_writable st Inside id td v ts Htd Hci); auto. exact I.
    - apply omap_some in He. destruct He as (t & _ & ->). intros w [<-|[]]. apply text_writable, Hl. left. reflexivity.
  Qed.
End Out.

Theorem out_writable : forall x E, writable_types E -> forall v, out_under x E v /\ out_inside x E v /\ out_attrs x E v.
Proof.
  intros x E Hw.
  assert (H : forall n v, height v <= n -> out_under x E v /\ out_inside x E v /\ out_attrs x E v).
  { induction n as [|n IH]; intros v Hv.
    - split; [apply (under_step x E Hw 0)|split; [apply (inside_step x E Hw 0)|apply (attrs_step x E Hw 0)]]; try assumption; intros; lia.
    - split; [apply (under_step x E Hw (S n))|split; [apply (inside_step x E Hw (S n))|apply (attrs_step x E Hw (S n))]];
        try assumption; intros w Hwn; apply IH; lia. }
  intros v. apply (H (height v)). lia.
Qed.

(** The document of a value. *)
Theorem flat_writable : forall x E id v l, writable_types E -> own_element E id -> ser_events x E id v = SOk l ->
  (forall e, In e l -> legal_event e) -> exists w, l = wtree w /\ is_elem w /\ Writable [] w /\ encode x E id v (Under None) = Some [w].
Proof.
  intros x E id v l Hw Hown Hl Hleg. pose proof (ser_events_encode x E id v) as He.
  destruct (encode x E id v (Under None)) as [ts|] eqn:Hts; [|exfalso; apply (He l); exact Hl].
  assert (l = flat_map wtree ts) by congruence. subst l.
  assert (Hone : exists w, ts = [w] /\ is_elem w).
  { pose proof Hts as Hts'. rewrite encode_eq in Hts'. unfold enc_type in Hts'. destruct (nth_error E id) as [td|] eqn:Htd; [|discriminate].
    specialize (Hown td Htd). destruct (t_body td) as [fs|vs d|k].
    1,2: destruct (ya_flatten (t_attrs td)); [destruct (Hown eq_refl); discriminate|];
      destruct (enc_start _ _ _ td v) as [[[own child] ns]|]; [|discriminate];
      destruct (enc_content _ _ _ td v); [|discriminate]; injection Hts' as <-; eexists; split; [reflexivity|exact I].
    apply omap_some in Hts'. destruct Hts' as (t & _ & ->). eexists. split; [reflexivity|exact I]. }
  destruct Hone as (w & -> & Hel). exists w. split; [cbn [flat_map]; apply app_nil_r|]. split; [exact Hel|].
  split; [|reflexivity]. apply (proj1 (out_writable x E Hw v) id None [] [w] Hts I); [|left; reflexivity].
  intros w' [<-|[]] e Hin. apply Hleg. cbn [flat_map]. rewrite app_nil_r. exact Hin.
Qed.

(** Without [flatten]. *)
Lemma unflat_part : forall E id td, wellformed E -> part_of E id td -> nth_error E id = Some td.
Proof.
  intros E id td Hw Hp. inversion Hp as [? ? Ht' _|? td0 fs0 f id' ? Ht' Hb' Hf Hfl Hty Hp']; subst; [exact Ht'|].
  pose proof (proj2 Hw id td0 Ht') as Hwt. unfold wellformed_type in Hwt. rewrite Hb' in Hwt. destruct Hwt as (_ & _ & Hwf & _).
  destruct (Hwf f Hf) as (_ & Hn & _). unfold flat_field in Hfl. rewrite Hn, andb_false_r in Hfl. discriminate.
Qed.
Lemma wellformed_types : forall E, wellformed E -> writable_types E.
Proof.
  intros E Hw. split; [apply Hw|]. intros id td Htd. pose proof (proj2 Hw id td Htd) as Hwt. unfold wellformed_type in Hwt. unfold writable_type.
  destruct (t_body td) as [fs|vs d|k] eqn:Hb; [| |exact Hwt].
  - destruct Hwt as (H1 & H2 & H3 & H4). split; [exact H1|]. split; [congruence|]. split.
    + intros f Hf. destruct (H3 f Hf) as (A & B & C). split; [exact A|]. split; [exact C|]. unfold flat_field. rewrite B, andb_false_r. discriminate.
    + intros i j f g n Hi Hj Hgf Hgg.
      assert (Hat : forall k h, nth_error fs k = Some h -> gives E h n -> ya_attribute (f_attrs h) = true /\ n = field_name h).
      { intros k h Hk [Hg|[Hg _]]; [exact Hg|]. destruct (H3 h (nth_error_In _ _ Hk)) as (_ & B & _). unfold flat_field in Hg. rewrite B, andb_false_r in Hg. discriminate. }
      destruct (Hat i f Hi Hgf) as [A1 A2]. destruct (Hat j g Hj Hgg) as [B1 B2]. apply (H4 i j f g); auto. congruence.
  - destruct Hwt as (H1 & H2 & H3 & H4). split; [exact H1|]. split; [congruence|]. split; [exact H3|].
    intros v Hv. specialize (H4 v Hv). destruct (v_body v) as [|fl t|fs]; [exact I| |exact H4].
    destruct H4 as (A & _ & _ & B). split; [exact A|]. intros id' td' Hid Hp. apply (B id' td' Hid). apply unflat_part; assumption.
Qed.
Lemma wellformed_element : forall E id, wellformed E -> own_element E id.
Proof.
  intros E id Hw td Htd Hfl. pose proof (proj2 Hw id td Htd) as Hwt. unfold wellformed_type in Hwt.
  destruct (t_body td) as [fs|vs d|k]; [| |eauto]; destruct Hwt as (_ & H & _); congruence.
Qed.
