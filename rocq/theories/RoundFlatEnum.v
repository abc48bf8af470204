(** * Round trips of enums and newtypes, with flattened fields about. *)
From Verif Require Import Str Num Xml XmlText Reader Schema De SpecTree SpecText SpecNum SpecTyped SpecStruct SpecSer SpecValue
  SpecEnc SpecRound SpecRoundFlat TreeFacts TreeProofs TextProofs ValueProofs StructProofs StructReads EncProofs SerProofs
  RoundNames RoundTexts RoundCore RoundFields RoundProofs SpecAlike InsertProofs AlikeTrees RewriteProofs RoundFlatCtx RoundFlatFields
  RoundFlatElem.
Open Scope list_scope.

Lemma alike_texts : forall s K, Forall2 AlikeTree (text_node s) K -> K = text_node s.
Proof.
  intros s K H. unfold text_node in *. destruct (str_nonws s); inversion H as [|a b l l' Hab Hl]; subst; [|reflexivity].
  inversion Hl; subst. inversion Hab; subst. reflexivity.
Qed.

Section Enum.
  Variable x : ext.
  Variable E : env.
  Hypothesis Hok : all_ok E.
  Notation B := (bindings E).
  Let Hcons : consistent E := proj1 Hok.
  Let Hfun := proj1 Hcons.

  (** ** Newtypes *)
  Lemma prim_works : forall L b id td k w p A M st, nth_error E id = Some td -> t_body td = DPrim k ->
    prim_survives x clean (t_name td) k w -> encode x E id w Inside = Some p -> start_data x E b id w A M ->
    Wrote E id w p A st /\ Returns x E L id w p A st.
  Proof.
    intros L b id td k w p A M st Htd Hb Hp He Hs.
    assert (A = []) as ->.
    { destruct b; cbn [start_data] in Hs; [apply Hs|]. rewrite encode_attrs_eq in Hs. unfold enc_type_attrs in Hs.
      rewrite Htd, Hb in Hs. injection Hs as <- _. reflexivity. }
    rewrite encode_eq in He. unfold enc_type in He. rewrite Htd, Hb in He. apply omap_some in He. destruct He as (u & Hu & ->).
    destruct (prim_text x clean _ _ _ _ (fun u h => proj1 h) Hp Hu) as [Hc Hparse].
    assert (Hns : ~ spread E id w) by (intros Hx; specialize (Hx td Htd); rewrite Hb in Hx; exact Hx).
    split.
    - split; [intros j [<-|[]]; constructor; exact Hc|]. split; [unfold ntexts; cbn; destruct (negb (String.eqb u "")); cbn; lia|].
      split; [intros Hx; destruct (Hns Hx)|]. split; [intros ? []|constructor].
    - intros o n a m K top Hrw Ht Hn Htop HK _. apply ctx_none in HK; [|intros j [Hx _]; apply (Hns Hx)].
      cbn [flat_map rkid] in HK. rewrite app_nil_r in HK. apply alike_texts in HK. subst K.
      rewrite Conforms_Fits, value_of_decode.
      assert (Htn : text_node u = [Txt u] \/ text_node u = [] /\ u = "").
      { destruct Hc as [Hc| ->]; [left; apply clean_node; exact Hc|right; auto]. }
      split.
      + eapply fits_prim; [exact Htd|exact Hb|]. destruct Htn as [-> | [-> _]]; eauto.
      + cbn [decode]. rewrite Htd, Hb. destruct Htn as [-> | [-> ->]]; rewrite Hparse; reflexivity.
  Qed.

  (** ** Unit variants *)
  Lemma unit_not_spread : forall id td vs d i, nth_error E id = Some td -> t_body td = DEnum vs d -> ~ spread E id (VVar i []).
  Proof. intros id td vs d i Htd Hb Hx. specialize (Hx td Htd). rewrite Hb in Hx. destruct Hx as (_ & j & w & Hx). discriminate. Qed.

  Lemma enum_start : forall b id td vs d i l A M vr, nth_error E id = Some td -> t_body td = DEnum vs d -> nth_error vs i = Some vr ->
    start_data x E b id (VVar i l) A M -> ya_tag (t_attrs td) = None -> A = [].
  Proof.
    intros b id td vs d i l A M vr Htd Hb Hv Hs Htag. destruct b; cbn [start_data] in Hs; [apply Hs|].
    rewrite encode_attrs_eq in Hs. unfold enc_type_attrs in Hs. rewrite Htd, Hb in Hs. apply omap_some in Hs.
    destruct Hs as ([[own child] ns] & H1 & H2). unfold enc_start in H1. rewrite Hb, Hv, Htag in H1. injection H1 as <- <- <-.
    injection H2 as -> _. reflexivity.
  Qed.

  Lemma unit_works : forall L b id td vs d i vr p A M st, nth_error E id = Some td -> t_body td = DEnum vs d ->
    ya_tag (t_attrs td) = None -> first_variant vs i vr -> v_body vr = VbUnit ->
    bare_variant (t_attrs td) vr -> clean (variant_name vr) ->
    encode x E id (VVar i []) Inside = Some p -> start_data x E b id (VVar i []) A M ->
    Wrote E id (VVar i []) p A st /\ Returns x E L id (VVar i []) p A st.
  Proof.
    intros L b id td vs d i vr p A M st Htd Hb Htag Hv Hu Hbare Hc He Hs.
    rewrite (enum_start b id td vs d i [] A M vr Htd Hb (proj1 Hv) Hs Htag) in *. clear Hs.
    rewrite encode_eq in He. unfold enc_type in He. rewrite Htd, Hb in He. unfold enc_content in He. rewrite Hb, (proj1 Hv) in He.
    unfold enc_variant in He. rewrite Hu, Htag, (bare_name _ _ Hbare) in He. injection He as <-.
    pose proof (unit_not_spread id td vs d i Htd Hb) as Hns. split.
    - split; [intros j [<-|[]]; constructor; left; exact Hc|].
      split; [unfold ntexts; cbn; destruct (negb (String.eqb (variant_name vr) "")); cbn; lia|].
      split; [intros Hx; destruct (Hns Hx)|]. split; [intros ? []|constructor].
    - intros o n a m K top Hrw Ht Hn Htop HK _. apply ctx_none in HK; [|intros j [Hx _]; apply (Hns Hx)].
      cbn [flat_map rkid] in HK. rewrite app_nil_r in HK. apply alike_texts in HK. subst K. rewrite (clean_node _ Hc).
      destruct (takes_enum E id td vs d n Htd Hb Ht Hn) as [H1 H2].
      rewrite Conforms_Fits, value_of_decode. split.
      + eapply fits_unit; [exact Htd|exact Hb|exact Htag|apply H2; exact Htag|].
        rewrite (variant_for_first _ _ _ Hv), Hu. intros (? & ? & ? & ? & Hx & _). discriminate.
      + cbn [decode]. rewrite Htd, Hb, H1, Htag. unfold text_variant. rewrite (variant_for_first _ _ _ Hv), Hu. reflexivity.
  Qed.

  (** ** Tagged enums *)
  Lemma tagged_works : forall L id td vs d tg i vr p A M st, nth_error E id = Some td -> t_body td = DEnum vs d ->
    ya_tag (t_attrs td) = Some tg -> first_variant vs i vr -> v_body vr = VbUnit -> legal_attr (variant_name vr) = true ->
    encode x E id (VVar i []) Inside = Some p -> start_data x E false id (VVar i []) A M ->
    Wrote E id (VVar i []) p A st /\ Returns x E L id (VVar i []) p A st.
  Proof.
    intros L id td vs d tg i vr p A M st Htd Hb Htag Hv Hu Hleg He Hs.
    assert (A = [Attr (Name tg None None) (variant_name vr)]) as ->.
    { cbn [start_data] in Hs. rewrite encode_attrs_eq in Hs. unfold enc_type_attrs in Hs. rewrite Htd, Hb in Hs. apply omap_some in Hs.
      destruct Hs as ([[own child] ns] & H1 & H2). unfold enc_start in H1. rewrite Hb, (proj1 Hv), Htag in H1. injection H1 as <- <- <-.
      injection H2 as -> _. reflexivity. }
    rewrite encode_eq in He. unfold enc_type in He. rewrite Htd, Hb in He. unfold enc_content in He. rewrite Hb, (proj1 Hv) in He.
    unfold enc_variant in He. rewrite Hu, Htag in He. injection He as <-.
    pose proof (unit_not_spread id td vs d i Htd Hb) as Hns.
    pose proof (proj2 Hok id td Htd) as Hfine. rewrite Hb in Hfine. destruct Hfine as (_ & Htg & _). destruct (Htg tg Htag) as [Hid Hx].
    assert (Hcl : claims_attr E id tg).
    { exists id, td. split; [left; reflexivity|]. split; [exact Htd|]. rewrite Hb. exact Htag. }
    split.
    - split; [intros ? []|]. split; [cbn; lia|]. split; [intros Hsp; destruct (Hns Hsp)|]. split.
      + intros a [<-|[]]. cbn [at_value at_name n_local]. split; [|split; [exact Hleg|exact Hcl]].
        split; [apply good_plain; exact Hid|]. split; [exact I|].
        split; [apply andb_true_iff in Hleg; apply Hleg|]. split; [discriminate|]. intros _. exact Hx.
      + cbn. constructor; [intros []|constructor].
    - intros o n a m K top Hrw Ht Hn Htop HK Hval. apply ctx_none in HK; [|intros j [Hsp _]; apply (Hns Hsp)].
      cbn [flat_map] in HK. inversion HK; subst. clear HK. specialize (Hval tg Hcl).
      assert (Hone : values_of tg a = [variant_name vr]).
      { rewrite Hval. unfold values_of. cbn [filter at_name n_local]. rewrite String.eqb_refl. reflexivity. }
      assert (Hvf : variant_for vs (variant_name vr) = Some (i, VbUnit)) by (rewrite (variant_for_first _ _ _ Hv), Hu; reflexivity).
      rewrite Conforms_Fits, value_of_decode. split.
      + eapply fits_tagged; [exact Htd|exact Hb|exact Htag|]. intros c r Hin Hloc <-. right. exists i.
        assert (Hm : In (at_value c) (values_of tg a)).
        { unfold values_of. apply in_map. apply filter_In. split; [exact Hin|]. rewrite Hloc. apply String.eqb_refl. }
        rewrite Hone in Hm. destruct Hm as [<-|[]]. exact Hvf.
      + destruct (takes_enum E id td vs d n Htd Hb Ht Hn) as [Hbad _]. cbn [decode]. rewrite Htd, Hb, Hbad, Htag.
        destruct (find_values tg a) as [[_ H2]|(c & r & H1 & H2)]; rewrite Hone in H2; [discriminate|]. rewrite H1.
        injection H2 as H2 _. rewrite <- H2. unfold text_variant. rewrite Hvf. reflexivity.
  Qed.

  (** ** Payloads *)
  Section Payload.
  Variable N : nat.
  Hypothesis IH : forall w, height w < N -> content_works x E w.
  Variable L : nat.
  Hypothesis HL : N <= L.
  Notation av := (attr_value_at x E (S L)).
  Notation fv := (flat_value_at x E (S L)).
  Notation af := (attr_fine_at x E (S L)).
  Notation ff := (flat_fine_at x E (S L)).
  Notation Dec := (decode x E av fv false).

  Definition ItemOk (vs : list variant) (t : fty) (i : nat) (st : nsstack) (v : value) (W : wnode) : Prop :=
    is_elem W /\ Neat B st W /\
    forall o k, AlikeTree (reread st W) k -> Rewritable o k ->
      PayloadFits x E af ff vs k /\ forall cur, payload_given x Dec vs cur k = store t i v cur.

  Lemma item_ok : forall id td vs d i vr fl t st w ks,
    nth_error E id = Some td -> t_body td = DEnum vs d -> first_variant vs i vr -> v_body vr = VbNew fl t ->
    within B st -> holds st (t_attrs td) -> height w < N ->
    InsideLasts x E (base_of t) w -> payload_content x E (base_of t) w = Some ks ->
    ItemOk vs t i st w (WElem (qname (variant_qname (t_attrs td) vr)) [] [] ks).
  Proof.
    intros id td vs d i vr fl t st w ks Htd Hb Hv Hbody Hst Hholds Hh Hs Hc.
    pose proof (proj2 Hok id td Htd) as Hfine. rewrite Hb in Hfine.
    destruct Hfine as (_ & _ & Hf). destruct (Hf vr fl t (nth_error_In _ _ (proj1 Hv)) Hbody) as (Hid & Hpf & Hacc).
    set (st' := declare st [] :: st).
    assert (Hst' : within B st') by (intros m p u [<-|Hin] Hi; [destruct Hi|apply (Hst m); assumption]).
    assert (Hm : means B st (variant_qname (t_attrs td) vr) (vlabel (t_attrs td) vr)).
    { apply prefixed_means; [exact Hcons|exact Hst|exact Hholds|apply (own_bound E id td Htd)|exact Hid|exact Hpf]. }
    pose proof (means_extend B Hfun (declare st []) st _ _ Hst' Hm) as Hm'. fold st' in Hm'.
    destruct (means_label B st' _ _ Hst' Hm') as (L1 & L2 & L3 & _).
    assert (Hloc : forall n', same_expanded (rname st' (qname (variant_qname (t_attrs td) vr))) n' -> variant_for vs (n_local n') = Some (i, VbNew fl t)).
    { intros n' [Hn _]. rewrite <- Hn. unfold elabel, vlabel in L1. injection L1 as _ L1. rewrite L1, (variant_for_first _ _ _ Hv), Hbody. reflexivity. }
    split; [exact I|].
    unfold payload_content in Hc. destruct (base_of t) as [s|uid] eqn:Hbt.
    - apply omap_some in Hc. destruct Hc as (u & Hu & ->). inversion Hs as [? ? Hl|]; subst.
      destruct (leaf_text x (fun t => clean t \/ t = "") s w u (fun u h => or_introl (proj1 h)) Hl Hu) as (Hc & Hp & _).
      assert (Hnt : ntexts [WTxt u] <= 1) by (unfold ntexts; cbn; destruct (negb (String.eqb u "")); cbn; lia).
      split.
      + apply n_elem; [intros ? []|apply Hm|exact L2| |intros ? []|constructor|exact Hnt|intros j [<-|[]]; constructor; exact Hc].
        fold st'. rewrite L1. symmetry. apply (means_resolve E st' _ _ Hcons Hst' Hm').
      + intros o k Ha Hrw. rewrite reread_elem in Ha. fold st' in Ha.
        rewrite reread_few in Ha; [|left; reflexivity|exact Hnt]. rewrite empty_node in Ha. cbn [app flat_map rkid] in Ha. rewrite app_nil_r in Ha.
        inversion Ha as [|? ? ? ? n' a' m' ks' Hn Hva Hk]; subst k.
        apply alike_texts in Hk. subst ks'. specialize (Hloc n' Hn).
        assert (Htn : text_node u = [] /\ u = "" \/ text_node u = [Txt u]).
        { destruct Hc as [Hc| ->]; [right; apply clean_node; exact Hc|left; auto]. }
        split.
        * eapply payload_simple; [exact Hloc|exact Hbt|]. destruct Htn as [[-> _] | ->]; eauto.
        * intros cur. cbn [payload_given]. rewrite Hloc, Hbt. destruct Htn as [[-> He] | ->]; [subst u|]; rewrite Hp; reflexivity.
    - inversion Hs as [|? ? Hsv]; subst.
      destruct (around x E Hok L w true uid ks [] [] st (variant_qname (t_attrs td) vr) (vlabel (t_attrs td) vr) ltac:(lia) (IH w Hh) Hsv Hc (conj eq_refl eq_refl) Hst Hm' Hacc)
        as (Hne & Hre & _ & _ & Hcf & Hva & _).
      split; [exact Hne|]. intros o k Ha Hrw.
      assert (Hrw0 : Rewritable (squash st) (reread st (WElem (qname (variant_qname (t_attrs td) vr)) [] [] ks))).
      { apply (neat_rewritable B Hfun (B_good E Hok) _ st Hne Hst). left. reflexivity. }
      pose proof (conforms_alike x E (S L) _ _ _ _ uid Ha Hrw0 Hrw Hcf) as Hcf'. rewrite Conforms_Fits in Hcf'.
      specialize (Hva false ltac:(discriminate)). rewrite <- (value_alike x E _ _ _ _ _ _ _ Ha Hrw0 Hrw), value_of_decode in Hva.
      rewrite Hre in Ha. fold st' in Ha. inversion Ha as [|? ? ? ? n' a' m' ks' Hn _ _]; subst. specialize (Hloc n' Hn). split.
      + eapply payload_user; [exact Hloc|exact Hbt|exact Hcf'].
      + intros cur. cbn [payload_given]. rewrite Hloc, Hbt, Hva. reflexivity.
  Qed.

  Lemma inside_item : forall q b w, InsideLasts x E b w ->
    enc_payload_item x (encode x E) q b w = SpecEnc.omap (fun ks => [WElem (qname q) [] [] ks]) (payload_content x E b w).
  Proof.
    intros q b w H. unfold enc_payload_item. f_equal. destruct H as [s v H|id v H]; [|reflexivity].
    destruct s; try reflexivity. destruct v; cbn in H; tauto || reflexivity.
  Qed.

  (** The payload elements and what they are folded to. *)
  Lemma payload_items : forall id td vs d i vr t st h v ks,
    nth_error E id = Some td -> t_body td = DEnum vs d -> first_variant vs i vr -> v_body vr = VbNew false t ->
    within B st -> holds st (t_attrs td) -> height v < N ->
    PayloadLasts x E d i t v ->
    enc_payload x (encode x E) h (variant_qname (t_attrs td) vr) false t v = Some ks ->
    exists l, Forall2 (ItemOk vs t i st) l ks /\
      obind (ofold (fun cur w => store t i w cur) l None) (fun o => OOk (or_default d o)) = OOk (VVar i [v]).
  Proof.
    intros id td vs d i vr t st h v ks Htd Hb Hv Hbody Hst Hholds Hh Hs He.
    pose proof (fun w ks => item_ok id td vs d i vr false t st w ks Htd Hb Hv Hbody Hst Hholds) as Hitem.
    assert (Hone : forall w, height w < N -> InsideLasts x E (base_of t) w ->
      SpecEnc.omap (fun ks => [WElem (qname (variant_qname (t_attrs td) vr)) [] [] ks]) (payload_content x E (base_of t) w) = Some ks ->
      Forall2 (ItemOk vs t i st) [w] ks).
    { intros w Hw Hsv Hc. apply omap_some in Hc. destruct Hc as (c & Hc & ->). constructor; [apply Hitem; assumption|constructor]. }
    destruct Hs as [d i b v Hin|d i b v Hin|d i b ->|d i b l Hne Hin|d i b ->].
    - exists [v]. split; [|reflexivity]. apply (Hone v Hh Hin). unfold enc_payload in He. destruct b as [s|uid].
      + cbn [base_of]. rewrite <- (simple_content x E). exact He.
      + cbn [base_of]. rewrite <- inside_item by exact Hin. exact He.
    - exists [v]. split; [|reflexivity]. apply Hone; [cbn in Hh; lia|exact Hin|]. unfold enc_payload in He. cbn [base_of].
      rewrite <- inside_item by exact Hin. exact He.
    - injection He as <-. exists []. split; [constructor|reflexivity].
    - unfold enc_payload in He. exists l. split.
      + assert (Hbelow : forall w, In w l -> height w < N) by (intros w Hw; apply height_in in Hw; cbn in Hh; lia).
        clear Hne Hh. revert ks He Hone. induction l as [|w l IHl]; intros ks He _; cbn [oconcat] in He; [injection He as <-; constructor|].
        apply oapp_some in He. destruct He as (p & r & Hp & Hr & ->). rewrite inside_item in Hp by (apply Hin; left; reflexivity).
        apply omap_some in Hp. destruct Hp as (c & Hc & ->). cbn [app]. constructor.
        * apply Hitem; [apply Hbelow; left; reflexivity|apply Hin; left; reflexivity|exact Hc].
        * apply IHl; [exact (fun u Hu => Hin u (or_intror Hu))|exact (fun u Hu => Hbelow u (or_intror Hu))|exact Hr|].
          intros u Hu Hsv Hcc. apply omap_some in Hcc. destruct Hcc as (c' & Hcc & ->). constructor; [apply Hitem; assumption|constructor].
      + assert (Hf : forall l0 done, ofold (fun cur w => store (TVec b) i w cur) l0 (Some (VVar i [VVec done])) = OOk (Some (VVar i [VVec (done ++ l0)]))).
        { induction l0 as [|w l0 IHl]; intros done; [cbn; rewrite app_nil_r; reflexivity|]. cbn [ofold store]. rewrite Nat.eqb_refl. cbn [obind].
          rewrite IHl, <- app_assoc. reflexivity. }
        destruct l as [|w l]; [congruence|]. cbn [ofold store obind]. rewrite Hf. reflexivity.
    - injection He as <-. exists []. split; [constructor|reflexivity].
  Qed.

  Lemma fold_items : forall vs t i st l ks, Forall2 (ItemOk vs t i st) l ks -> within B st -> forall cur,
    ofold (payload_given x Dec vs) (flat_map (rkid st) ks) cur = ofold (fun cur w => store t i w cur) l cur.
  Proof.
    intros vs t i st l ks H Hst. induction H as [|w W l ks (He & Hne & Hi) Hl IHl]; intros cur; [reflexivity|].
    destruct W as [n a m c|s|s]; try destruct He. cbn [flat_map rkid app ofold].
    assert (Hrw : Rewritable (squash st) (reread st (WElem n a m c))).
    { apply (neat_rewritable B Hfun (B_good E Hok) _ st Hne Hst). left. reflexivity. }
    rewrite (proj2 (Hi _ _ (alike_refl _) Hrw)). destruct (store t i w cur); try reflexivity. cbn [obind]. apply IHl.
  Qed.

  Lemma payload_works : forall b id td vs d i vr t v p A M st, nth_error E id = Some td -> t_body td = DEnum vs d ->
    ya_tag (t_attrs td) = None -> first_variant vs i vr -> v_body vr = VbNew false t -> ya_flatten (v_attrs vr) = false ->
    (b = true -> ya_namespaces (t_attrs td) = []) -> PayloadLasts x E d i t v -> height v < N ->
    encode x E id (VVar i [v]) Inside = Some p -> start_data x E b id (VVar i [v]) A M -> within B st ->
    (forall q u, In (q, u) M -> nss_get st q = Some u) ->
    Wrote E id (VVar i [v]) p A st /\ Returns x E L id (VVar i [v]) p A st.
  Proof.
    intros b id td vs d i vr t v p A M st Htd Hb Htag Hv Hbody Hvf Hnsp Hpl Hh He Hs Hst HM.
    assert (Hholds : holds st (t_attrs td)).
    { destruct b; [apply no_namespaces, Hnsp; reflexivity|]. apply (start_holds x E Hok id td (VVar i [v]) A M st Htd); [|exact Hs|exact HM].
      intros k Hk. congruence. }
    rewrite (enum_start b id td vs d i [v] A M vr Htd Hb (proj1 Hv) Hs Htag) in *. clear Hs.
    rewrite encode_eq in He. unfold enc_type in He. rewrite Htd, Hb in He. unfold enc_content in He. rewrite Hb, (proj1 Hv) in He.
    unfold enc_variant in He. rewrite Hbody, Hvf in He. cbn [orb] in He.
    destruct (payload_items id td vs d i vr t st Inside v p Htd Hb Hv Hbody Hst Hholds Hh Hpl He) as (l & Hitems & Hfold).
    assert (Hall : forall k, In k p -> exists w, ItemOk vs t i st w k).
    { intros k Hk. destruct (forall2_in _ _ _ _ _ Hitems k Hk) as (w & _ & Hw). eauto. }
    split.
    - split; [intros k Hk; destruct (Hall k Hk) as (w & _ & H & _); exact H|]. split.
      + unfold ntexts. replace (filter some_text p) with (@nil wnode); [cbn; lia|]. clear -Hall. induction p as [|k p IHp]; [reflexivity|].
        cbn [filter]. destruct (Hall k (or_introl eq_refl)) as (w & Hk & _). destruct k; try destruct Hk. cbn [some_text].
        apply IHp. intros c Hc. apply Hall. right. exact Hc.
      + split; [intros _ _ k Hk; destruct (Hall k Hk) as (w & H & _); exact H|]. split; [intros ? []|constructor].
    - intros o n a m K top Hrw Ht Hn Htop HK _.
      destruct (takes_enum E id td vs d n Htd Hb Ht Hn) as [H1 H2]. specialize (H2 Htag).
      assert (Halien : forall k, spread E id (VVar i [v]) /\ ignored E id k -> alien vs k).
      { intros k [_ Hi]. specialize (Hi id td (or_introl eq_refl) Htd). rewrite Hb in Hi. exact Hi. }
      inversion Hrw as [|? ? ? ? ? _ _ _ _ _ _ _ _ _ HrK]; subst.
      assert (Hin0 : forall k0, In k0 (flat_map (rkid st) p) -> exists w W, ItemOk vs t i st w W /\ k0 = reread st W /\ Rewritable (squash st) k0).
      { intros k0 Hk0. apply in_flat_map in Hk0. destruct Hk0 as (W & HW & Hk0). destruct (Hall W HW) as (w & Hw).
        pose proof Hw as (Hel & Hne & _). pose proof (neat_rewritable B Hfun (B_good E Hok) _ st Hne Hst k0 Hk0) as Hr.
        destruct W; try destruct Hel. cbn [rkid] in Hk0. destruct Hk0 as [<-|[]]. eauto. }
      assert (Hval : obind (ofold (payload_given x Dec vs) K None) (fun o => OOk (or_default d o)) = OOk (VVar i [v])).
      { rewrite <- Hfold. rewrite <- (fold_items vs t i st l p Hitems Hst None). f_equal.
        apply (ctx_fold _ _ (payload_given x Dec vs) _ _ HK).
        - intros cur k Hk. apply Halien in Hk. destruct Hk as [s Hk|n0 a0 m0 ks0 Hk _]; [reflexivity|]. apply payload_alien. exact Hk.
        - intros cur k0 k Hk0 Hk Hal. destruct (Hin0 k0 Hk0) as (w & W & (_ & _ & Hi) & -> & Hr).
          rewrite (proj2 (Hi _ _ Hal (HrK k Hk))), (proj2 (Hi _ _ (alike_refl _) Hr)). reflexivity. }
      rewrite Conforms_Fits, value_of_decode.
      assert (Hfit : forall k, In k K -> PayloadFits x E af ff vs k).
      { intros k Hk. destruct (ctx_in _ _ _ _ HK Hk) as [Hx|(k0 & Hk0 & Hal)]; [apply payload_other, Halien, Hx|].
        destruct (Hin0 k0 Hk0) as (w & W & (_ & _ & Hi) & -> & Hr). apply (Hi _ _ Hal (HrK k Hk)). }
      destruct (kid_text K) as [s|] eqn:Hkt.
      + (* only an inserted text *)
        assert (K = [Txt s]) as -> by (destruct K as [|[|s'] [|]]; try discriminate; injection Hkt as ->; reflexivity).
        assert (Has : alien vs (Txt s)).
        { destruct (ctx_in _ _ _ _ HK (or_introl eq_refl)) as [Hx|(k0 & Hk0 & Hal)]; [apply Halien, Hx|].
          destruct (Hin0 k0 Hk0) as (w & W & (Hel & _) & -> & _). destruct W; try destruct Hel. rewrite reread_elem in Hal. inversion Hal. }
        inversion Has as [? Hvs|]; subst. split.
        * eapply fits_unit; [exact Htd|exact Hb|exact Htag|exact H2|]. rewrite Hvs. intros (? & ? & ? & ? & Hx & _). discriminate.
        * cbn [decode]. rewrite Htd, Hb, H1, Htag. unfold text_variant. rewrite Hvs. exact Hval.
      + split.
        * eapply fits_payload; [exact Htd|exact Hb|exact Htag|exact H2| |exact Hfit]. intros s ->. discriminate.
        * cbn [decode]. rewrite Htd, Hb, H1, Htag, match_text, Hkt. exact Hval.
  Qed.
  End Payload.
End Enum.
