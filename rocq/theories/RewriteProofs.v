(** * Trees that can be written and read again without loss, as the
      deserializers of flattened fields do. *)
From Verif Require Import Str Num Xml XmlText Reader Schema De RunFacts SpecTree TreeFacts TreeProofs
  SpecText TextProofs SpecNum SpecTyped SpecSer SpecValue ValueProofs SpecStruct StructProofs StructReads SpecEnc SpecRound SpecRoundFlat
  RoundNames RoundTexts RoundCore SpecAlike InsertProofs AlikeTrees.
From Verif Require Export SpecRewrite.
Open Scope list_scope.

(** ** Texts among children *)
(** The tree of one child. *)
Definition rkid (st : nsstack) (k : wnode) : list node :=
  match k with WTxt s | WCd s => text_node s | WElem _ _ _ _ => [reread st k] end.

Lemma ntexts_app : forall a b, ntexts (a ++ b) = ntexts a + ntexts b.
Proof. intros a b. unfold ntexts. rewrite filter_app, app_length. reflexivity. Qed.
Lemma sapp_empty : forall s, s +++ "" = s.
Proof. exact sapp_nil. Qed.

Lemma reread_few : forall st l buf, (buf = "" \/ ntexts l = 0) -> ntexts l <= 1 ->
  reread_kids st l buf = text_node buf ++ flat_map (rkid st) l.
Proof.
  intros st. induction l as [|k l IH]; intros buf Hb Hn; [cbn; rewrite app_nil_r; reflexivity|].
  assert (Htext : forall s, (k = WTxt s \/ k = WCd s) -> reread_kids st l (buf +++ s) = text_node buf ++ text_node s ++ flat_map (rkid st) l).
  { intros s Hk. destruct (String.eqb_spec s "") as [->|Hs].
    - assert (Hl : ntexts (k :: l) = ntexts l) by (unfold ntexts; destruct Hk as [-> | ->]; reflexivity).
      rewrite Hl in *. rewrite sapp_nil, IH by assumption. rewrite empty_node. reflexivity.
    - assert (Hl : ntexts (k :: l) = S (ntexts l)).
      { unfold ntexts. cbn [filter]. destruct Hk as [-> | ->]; cbn [some_text]; destruct (String.eqb_spec s ""); try congruence; reflexivity. }
      rewrite Hl in *. destruct Hb as [->|Hb]; [|lia]. cbn [String.append]. rewrite IH by lia. rewrite empty_node. reflexivity. }
  cbn [reread_kids flat_map]. destruct k as [n a m ks|s|s].
  - change (ntexts (WElem n a m ks :: l)) with (ntexts l) in *. cbn [rkid]. rewrite IH by auto. rewrite empty_node. reflexivity.
  - apply Htext. auto.
  - apply Htext. auto.
Qed.

(** ** Trees *)
Lemma rewritable_steady : forall t o, Rewritable o t -> Steady o t /\ Resolved t.
Proof.
  induction t as [s|n a m ks IH] using node_ind'; intros o H; [split; constructor|].
  inversion H as [|? ? ? ? ? H1 H2 H3 H4 H5 H6 H7 H8 H9 H10]; subst.
  split; constructor; try assumption; intros k Hk; apply (IH k Hk m (H10 k Hk)).
Qed.

Lemma few_filter : forall p ks, few ks -> few (filter p ks).
Proof.
  intros p ks. unfold few. intros H. enough (List.length (filter is_txt (filter p ks)) <= List.length (filter is_txt ks)) by lia.
  clear H. induction ks as [|k ks IH]; [cbn; lia|]. cbn [filter]. destruct (p k); cbn [filter]; destruct (is_txt k); cbn [List.length]; lia.
Qed.

(** Any scope will do for the root. *)
Lemma rewritable_open : forall o t, Rewritable o t -> Rewritable [] t.
Proof. intros o t H. destruct H; [constructor; assumption|]. constructor; try assumption. discriminate. Qed.
Lemma rewritable_rest : forall o n a m ks p, Rewritable o (Elem n a m ks) -> Rewritable o (Elem n a m (filter p ks)).
Proof.
  intros o n a m ks p H. inversion H as [|? ? ? ? ? H1 H2 H3 H4 H5 H6 H7 H8 H9 H10]; subst.
  constructor; try assumption; [apply few_filter; exact H9|]. intros k Hk. apply filter_In in Hk. apply H10, Hk.
Qed.

Lemma few_texts : forall ks, few ks -> ntexts (map wn ks) <= 1.
Proof.
  intros ks H. unfold few, ntexts in *. enough (List.length (filter some_text (map wn ks)) <= List.length (filter is_txt ks)) by lia.
  clear H. induction ks as [|[n a m l|s] ks IH]; cbn [map filter wn some_text is_txt]; [cbn; lia|exact IH|].
  destruct (String.eqb s ""); cbn [negb List.length]; lia.
Qed.

(** Children one by one. *)
Lemma reread_rewritable : forall st ks o, few ks -> (forall k, In k ks -> Rewritable o k) ->
  reread_kids st (map wn ks) "" = map (fun k => reread st (wn k)) ks.
Proof.
  intros st ks o Hf Hk. rewrite reread_few; [|left; reflexivity|apply few_texts; exact Hf]. rewrite empty_node. cbn [app]. clear Hf.
  induction ks as [|k ks IH]; [reflexivity|]. cbn [map flat_map]. rewrite IH by (intros; apply Hk; right; assumption).
  specialize (Hk k (or_introl eq_refl)). destruct Hk as [o s Hs|]; [|reflexivity]. cbn [wn rkid reread]. rewrite (clean_node _ Hs). reflexivity.
Qed.

Lemma declare_wanted : forall st m pu, In pu (declare st m) -> In pu m.
Proof. exact declare_in. Qed.

Lemma bound_get : forall st st' n, (forall p, nss_get st p = nss_get st' p) -> bound st n -> bound st' n.
Proof. intros st st' n H. unfold bound, lookup_prefix. destruct (n_prefix n) as [p|]; [|auto]. destruct (String.eqb p "xml"); rewrite ?H; auto. Qed.
Lemma good_attr_get : forall st st' b, (forall p, nss_get st p = nss_get st' p) -> good_attr st b -> good_attr st' b.
Proof. intros st st' b H (H1 & H2 & H3). split; [exact H1|]. split; [apply (bound_get st); assumption|exact H3]. Qed.

(** They can be written. *)
Lemma rewritable_writable : forall t st o, agreeing st -> (forall p, nss_get st p = ns_get o p) -> Rewritable o t -> Writable st (wn t).
Proof.
  induction t as [s|n a m ks IH] using node_ind'; intros st o Ha Ho H.
  - inversion H; subst. constructor. match goal with H : clean _ |- _ => apply H end.
  - inversion H as [|? ? ? ? ? H1 H2 H3 H4 H5 H6 H7 H8 H9 H10]; subst.
    destruct (declare_get st o m Ha H1 Ho H2) as [Hg Hag].
    assert (Hg' : forall p, nss_get [m] p = nss_get (declare st m :: st) p) by (intros p; rewrite Hg; apply one_get).
    cbn [wn]. apply w_elem; [exact H4|apply (bound_get [m]); assumption| |exact H8| |].
    + intros b Hb. apply (good_attr_get [m]); [exact Hg'|]. apply H7. exact Hb.
    + intros pu Hpu. apply H3. apply (declare_in st). exact Hpu.
    + intros k Hk. apply in_map_iff in Hk. destruct Hk as (c & <- & Hc). apply (IH c Hc _ m Hag Hg). apply H10. exact Hc.
Qed.

Lemma rname_repr : forall st n, name_repr (rname st n) = name_repr n.
Proof. intros st n. unfold rname, name_repr. destruct (n_prefix n); reflexivity. Qed.
Lemma rattr_repr : forall st b, name_repr (at_name (rattr st b)) = name_repr (at_name b).
Proof. intros st b. unfold rattr, name_repr. cbn [at_name]. destruct (n_prefix (at_name b)); reflexivity. Qed.
Lemma good_rname : forall st n, good_name n -> good_name (rname st n).
Proof.
  intros st n [H1 H2]. split; rewrite rname_repr; [|rewrite H2; unfold rname; destruct (n_prefix n); reflexivity].
  unfold rname. destruct (n_prefix n); exact H1.
Qed.
Lemma good_rattr : forall st st' b, good_attr st b -> (forall p, nss_get st p = nss_get st' p) -> legal_attr (at_value b) = true ->
  good_attr st' (rattr st b) /\ legal_attr (at_value (rattr st b)) = true.
Proof.
  intros st st' b ((H0 & H0') & H1 & H2 & H3 & H4) Hg Hl.
  assert (Hv : at_value (rattr st b) = at_value b) by (unfold rattr; cbn [at_value]; apply untab_legal; exact Hl).
  split; [|rewrite Hv; exact Hl]. unfold good_attr. rewrite Hv. split.
  - split; rewrite rattr_repr; [|rewrite H0'; unfold rattr; cbn [at_name]; destruct (n_prefix (at_name b)); reflexivity].
    unfold rattr. cbn [at_name]. destruct (n_prefix (at_name b)); exact H0.
  - split; [|unfold rattr; cbn [at_name]; destruct (n_prefix (at_name b)); auto].
    unfold rattr, bound, lookup_prefix in *. cbn [at_name]. destruct (n_prefix (at_name b)) as [p|]; cbn [n_prefix]; [|exact I].
    destruct (String.eqb p "xml"); [congruence|]. rewrite <- Hg. exact H1.
Qed.
Lemma in_squash : forall st pu, In pu (squash st) -> exists m, In m st /\ In pu m.
Proof.
  intros st pu. unfold squash. assert (H : forall l m, In pu (fold_left ns_extend l m) -> In pu m \/ exists m', In m' l /\ In pu m').
  { induction l as [|a l IH]; intros m Hin; [left; exact Hin|]. cbn [fold_left] in Hin. destruct (IH _ Hin) as [H|(m' & H1 & H2)].
    - destruct pu as [p u]. apply ns_extend_in in H. destruct H as [H|H]; [left; exact H|right; exists a; split; [left; reflexivity|exact H]].
    - right. exists m'. split; [right; exact H1|exact H2]. }
  intros Hin. destruct (H st [] Hin) as [[]|Hr]. exact Hr.
Qed.

Lemma map_reprs : forall st a, map (fun b => name_repr (at_name b)) (map (rattr st) a) = map (fun b => name_repr (at_name b)) a.
Proof. intros st a. rewrite map_map. apply map_ext. intros b. apply rattr_repr. Qed.
Lemma few_map : forall st ks, few ks -> few (map (fun k => reread st (wn k)) ks).
Proof.
  intros st ks H. unfold few in *. enough (He : List.length (filter is_txt (map (fun k => reread st (wn k)) ks)) = List.length (filter is_txt ks)) by lia.
  clear H. induction ks as [|[n a m l|s] ks IH]; [reflexivity|exact IH|]. cbn [map wn reread filter is_txt List.length]. rewrite IH. reflexivity.
Qed.

(** Reading them again gives such trees, alike. *)
Lemma reread_again : forall t st o, agreeing st -> (forall p, nss_get st p = ns_get o p) -> (forall m pu, In m st -> In pu m -> good_decl pu) ->
  Rewritable o t -> Rewritable (squash st) (reread st (wn t)) /\ AlikeTree t (reread st (wn t)).
Proof.
  induction t as [s|n a m ks IH] using node_ind'; intros st o Ha Ho Hd H.
  - inversion H; subst. cbn [wn reread]. split; constructor. assumption.
  - inversion H as [|? ? ? ? ? H1 H2 H3 H4 H5 H6 H7 H8 H9 H10]; subst.
    destruct (declare_get st o m Ha H1 Ho H2) as [Hg Hag]. cbn [wn]. rewrite reread_elem. set (st' := declare st m :: st) in *.
    assert (Hsq : forall p, nss_get [squash st'] p = nss_get st' p) by (intros p; rewrite one_get; apply squash_get).
    assert (Hd' : forall m' pu, In m' st' -> In pu m' -> good_decl pu).
    { intros m' pu [<-|Hin] Hpu; [apply H3, (declare_in st), Hpu|apply (Hd m'); assumption]. }
    rewrite (reread_rewritable st' ks m H9 H10).
    assert (Hn : n_ns n = n_ns (rname st' n)).
    { rewrite H6. rewrite (rname_get [m] st') by (intros p; rewrite Hg, one_get; reflexivity). reflexivity. }
    split.
    + constructor.
      * apply squash_sorted.
      * intros p u. rewrite !squash_get. unfold st'. rewrite Hg, Ho. apply H2.
      * intros pu Hpu. apply in_squash in Hpu. destruct Hpu as (m' & Hm' & Hpu). apply (Hd' m'); assumption.
      * apply good_rname. exact H4.
      * apply (bound_get st'); [symmetry; apply Hsq|]. unfold bound, rname in *.
        destruct (n_prefix n) as [p|]; cbn [n_prefix]; [|exact I]. unfold lookup_prefix in *. destruct (String.eqb p "xml"); [exact H5|].
        rewrite Hg. rewrite one_get in H5. exact H5.
      * rewrite (rname_get [squash st'] st') by exact Hsq. symmetry. apply rname_rname.
      * intros b Hb. apply in_map_iff in Hb. destruct Hb as (c & <- & Hc). destruct (H7 c Hc) as [Hc1 Hc2].
        apply good_rattr; [|intros p; symmetry; apply Hsq|exact Hc2]. apply (good_attr_get [m]); [|exact Hc1]. intros p. rewrite Hg. apply one_get.
      * rewrite map_reprs. exact H8.
      * apply few_map. exact H9.
      * intros k Hk. apply in_map_iff in Hk. destruct Hk as (c & <- & Hc). apply (IH c Hc st' m Hag Hg Hd' (H10 c Hc)).
    + constructor.
      * split; [symmetry; apply local_rname|exact Hn].
      * intros l. rewrite values_rattr. symmetry. rewrite <- (map_id (values_of l a)) at 2. apply map_ext_in. intros v Hv.
        unfold values_of in Hv. apply in_map_iff in Hv. destruct Hv as (b & <- & Hb). apply filter_In in Hb. apply untab_legal. apply H7. apply Hb.
      * clear -IH H10 Hag Hg Hd'. induction ks as [|k ks IHk]; [constructor|]. cbn [map]. constructor.
        -- apply (IH k (or_introl eq_refl) st' m Hag Hg Hd' (H10 k (or_introl eq_refl))).
        -- apply IHk; [exact (fun c Hc => IH c (or_intror Hc))|exact (fun c Hc => H10 c (or_intror Hc))].
Qed.

(** The document made for a flattened field. *)
Lemma rest_again : forall o t, Rewritable o t ->
  Writable [] (wn t) /\ Rewritable [] (reread [] (wn t)) /\ AlikeTree t (reread [] (wn t)).
Proof.
  intros o t H. apply rewritable_open in H.
  assert (Ha : agreeing []) by (intros ? ? ? []). assert (Hd : forall m (pu : string * string), In m [] -> In pu m -> good_decl pu) by (intros ? ? []).
  destruct (reread_again t [] [] Ha (fun p => eq_refl) Hd H) as [H1 H2].
  split; [apply (rewritable_writable t [] [] Ha (fun p => eq_refl) H)|]. split; assumption.
Qed.

(** ** Alike trees conform alike *)
Lemma alike_refl : forall t, AlikeTree t t.
Proof.
  induction t as [s|n a m ks IH] using node_ind'; [constructor|]. constructor; [split; reflexivity|reflexivity|].
  induction ks as [|k ks IHk]; [constructor|]. constructor; [apply IH; left; reflexivity|apply IHk; intros; apply IH; right; assumption].
Qed.
Lemma alike_trans : forall a b c, AlikeTree a b -> AlikeTree b c -> AlikeTree a c.
Proof.
  induction a as [s|n a m ks IH] using node_ind'; intros b c H1 H2.
  - inversion H1; subst. exact H2.
  - inversion H1 as [|? ? ? ? n1 a1 m1 k1 [E1 E2] Hv1 Hf1]; subst. inversion H2 as [|? ? ? ? n2 a2 m2 k2 [E3 E4] Hv2 Hf2]; subst.
    constructor; [split; congruence|intros l; congruence|]. clear -IH Hf1 Hf2. revert k2 Hf2.
    induction Hf1 as [|x y l l' Hxy Hl IHl]; intros k2 Hf2; inversion Hf2; subst; constructor.
    + eapply IH; [left; reflexivity|eassumption|eassumption].
    + apply IHl; [|assumption]. intros; eapply IH; [right; eassumption|eassumption|eassumption].
Qed.

Lemma alien_alike : forall vs k, alien vs k -> forall k', AlikeTree k k' -> alien vs k'.
Proof.
  intros vs k H. induction H as [s Hs|n a m ks Hn Hk IH]; intros k' Ha; inversion Ha as [|? ? ? ? n' a' m' ks' [El _] _ Hf]; subst.
  - constructor. exact Hs.
  - constructor; [rewrite <- El; exact Hn|]. intros c Hc. clear -IH Hf Hc. induction Hf as [|x y l l' Hxy Hl IHl]; [destruct Hc|].
    destruct Hc as [<-|Hc]; [apply (IH x (or_introl eq_refl)); exact Hxy|]. apply IHl; [|exact Hc]. intros; eapply IH; [right; eassumption|eassumption].
Qed.

Lemma values_in : forall a a' b', (forall l, values_of l a = values_of l a') -> In b' a' ->
  exists b, In b a /\ n_local (at_name b) = n_local (at_name b') /\ at_value b = at_value b'.
Proof.
  intros a a' b' Hv Hin. specialize (Hv (n_local (at_name b'))).
  assert (H : In (at_value b') (values_of (n_local (at_name b')) a)).
  { rewrite Hv. unfold values_of. apply in_map. apply filter_In. split; [exact Hin|apply String.eqb_refl]. }
  unfold values_of in H. apply in_map_iff in H. destruct H as (b & Hb & Hin'). apply filter_In in Hin'. destruct Hin' as [H1 H2].
  apply String.eqb_eq in H2. eauto.
Qed.
Lemma forall2_in : forall A B (R : A -> B -> Prop) l l', Forall2 R l l' -> forall b, In b l' -> exists a, In a l /\ R a b.
Proof.
  intros A B R l l' H. induction H as [|a b l l' Hab Hl IH]; intros c Hc; [destruct Hc|]. destruct Hc as [<-|Hc].
  - exists a. split; [left; reflexivity|exact Hab].
  - destruct (IH c Hc) as (d & Hd & Hr). exists d. split; [right; exact Hd|exact Hr].
Qed.
Lemma text_shape : forall l l', Forall2 AlikeTree l l' -> forall s, l' = [Txt s] -> l = [Txt s].
Proof.
  intros l l' H s ->. inversion H as [|a b ? ? Hab Hl]; subst. inversion Hl; subst. inversion Hab; subst. reflexivity.
Qed.
Lemma small_shape : forall l l', Forall2 AlikeTree l l' -> (l = [] \/ exists s, l = [Txt s]) -> l' = [] \/ exists s, l' = [Txt s].
Proof.
  intros l l' H [->|[s ->]].
  - inversion H; subst. left; reflexivity.
  - inversion H as [|a b ? ? Hab Hl]; subst. inversion Hl; subst. inversion Hab; subst. right; eauto.
Qed.

Section ConformAlike.
  Variable x : ext.
  Variable E : env.

  Lemma tidy_alike : forall ra fs k k', AlikeTree k k' -> Tidy x E ra fs k -> Tidy x E ra fs k'.
  Proof.
    intros ra fs k k' Ha H. inversion Ha as [|? ? ? ? n' a' m' ks' Hn Hv Hf]; subst; [exact I|]. cbn [Tidy] in *. intros i f Hff.
    rewrite <- (field_for_alike ra fs n n' Hn) in Hff. specialize (H i f Hff). destruct (base_of (f_ty f)) as [s|id].
    - destruct H as (t & v & -> & Hvis). inversion Hf as [|p q ? ? Hpq Hl]; subst. inversion Hl; subst. inversion Hpq; subst. eauto.
    - destruct H as (td & Htd & H). exists td. split; [exact Htd|]. destruct (t_body td) as [fs'|vs d|p].
      + exact I.
      + destruct (ya_tag (t_attrs td)) as [tg|].
        * intros b j Hb Hloc. destruct (values_in a a' b Hv Hb) as (c & Hc & Hl & Hval). rewrite <- Hval. apply (H c j Hc). congruence.
        * intros s j Hk. apply (H s j). eapply text_shape; eassumption.
      + intros s Hk. apply (H s). eapply text_shape; eassumption.
  Qed.

  Theorem conforms_alike : forall k t t' o o' id, AlikeTree t t' -> Rewritable o t -> Rewritable o' t' ->
    Conforms x E k id t -> Conforms x E k id t'.
  Proof.
    induction k as [k IHk] using (well_founded_induction lt_wf).
    induction t as [s|n a m ks IH] using node_ind'; intros t' o o' id Hal Hw Hw' Hc.
    { inversion Hal; subst. exact Hc. }
    pose proof Hal as Hal0. inversion Hal as [|? ? ? ? n' a' m' ks' Hn Hv Hf]; subst.
    pose proof Hw as Hw0. pose proof Hw' as Hw0'.
    inversion Hw as [|? ? ? ? ? H1 H2 H3 H4 H5 H6 H7 H8 H9 H10]; subst.
    inversion Hw' as [|? ? ? ? ? H1' H2' H3' H4' H5' H6' H7' H8' H9' H10']; subst.
    rewrite Conforms_Fits in Hc |- *.
    inversion Hc as [? td fs ? ? ? ? Htd Hb Hlab Hat Hkids Hfl|? td vs d ? ? ? s Htd Hb Htag Hvn Hup|? td vs d ? ? ? ? Htd Hb Htag Hvn Hnt Hpay
      |? td vs d tg ? ? ? Htd Hb Htag Hval|? td p ? ? ? ? Htd Hb Hk]; subst.
    - eapply fits_struct; [exact Htd|exact Hb| | | |].
      + rewrite <- (field_for_alike _ fs n n' Hn). destruct Hlab as [Hlab|Hlab]; [left|right; exact Hlab].
        rewrite <- Hlab. unfold elabel. rewrite (proj1 Hn), (proj2 Hn). reflexivity.
      + intros f b' id' Hin Hb' Hattr Hloc Hbase. destruct (values_in a a' b' Hv Hb') as (b & Hin' & Hl & Hvl).
        specialize (Hat f b id' Hin Hin' Hattr ltac:(congruence) Hbase). rewrite Hvl in Hat. exact Hat.
      + intros c' Hc'. destruct (forall2_in _ _ _ _ _ Hf c' Hc') as (c & Hin & Hcc). specialize (Hkids c Hin).
        inversion Hkids as [? ? ? Hs|? ? cn ca cm ck i f s Hff Hbase Hns Hck|? ? cn ca cm ck i f id' Hff Hbase Hfit|? ? cn ca cm ck Hff]; subst.
        * inversion Hcc; subst. constructor; assumption.
        * inversion Hcc as [|? ? ? ? n1 a1 m1 k1 Hn1 Hv1 Hf1]; subst. eapply kid_simple; [rewrite <- (field_for_alike _ fs cn n1 Hn1); exact Hff|exact Hbase| |].
          -- rewrite <- (proj2 Hn1). exact Hns.
          -- eapply small_shape; eassumption.
        * pose proof (IH _ Hin c' m m' id' Hcc (H10 _ Hin) (H10' _ Hc')) as Hi. rewrite !Conforms_Fits in Hi. specialize (Hi Hfit).
          inversion Hcc as [|? ? ? ? n1 a1 m1 k1 Hn1 Hv1 Hf1]; subst.
          eapply kid_user; [rewrite <- (field_for_alike _ fs cn n1 Hn1); exact Hff|exact Hbase|exact Hi].
        * inversion Hcc as [|? ? ? ? n1 a1 m1 k1 Hn1 Hv1 Hf1]; subst. apply kid_other. rewrite <- (field_for_alike _ fs cn n1 Hn1). exact Hff.
      + intros Hfs. destruct (Hfl Hfs) as [Hflat Htidy]. split.
        * intros f Hin Hff. destruct (Hflat f Hin Hff) as (id' & Hty & Hfine). exists id'. split; [exact Hty|].
          destruct k as [|k]; [exact Hfine|]. cbn [flat_fine_at] in *. destruct Hfine as [Hwr Hcf].
          pose proof (rewritable_rest _ _ _ _ _ (is_left (t_attrs td) fs) Hw0) as Hr.
          pose proof (rewritable_rest _ _ _ _ _ (is_left (t_attrs td) fs) Hw0') as Hr'.
          destruct (rest_again _ _ Hr) as (G1 & G2 & G3). destruct (rest_again _ _ Hr') as (G1' & G2' & G3').
          split; [exact G1'|]. refine (IHk k (Nat.lt_succ_diag_r k) _ _ [] [] id' _ G2 G2' Hcf).
          destruct (rewritable_steady _ _ (rewritable_open _ _ Hr)) as [S1 S2]. destruct (rewritable_steady _ _ (rewritable_open _ _ Hr')) as [S1' S2'].
          assert (Ha0 : agreeing []) by (intros ? ? ? []).
          apply (reread_alike _ _ [] [] [] []); auto. constructor; [exact Hn|exact Hv|apply filter_alike; exact Hf].
        * intros c' Hc'. destruct (forall2_in _ _ _ _ _ Hf c' Hc') as (c & Hin & Hcc). eapply tidy_alike; [exact Hcc|]. apply Htidy. exact Hin.
    - inversion Hf as [|p q ? ? Hpq Hl]; subst. inversion Hl; subst. inversion Hpq; subst.
      eapply fits_unit; [exact Htd|exact Hb|exact Htag|rewrite <- (proj1 Hn); exact Hvn|exact Hup].
    - eapply fits_payload; [exact Htd|exact Hb|exact Htag|rewrite <- (proj1 Hn); exact Hvn| |].
      + intros s Hk. apply (Hnt s). eapply text_shape; eassumption.
      + intros c' Hc'. destruct (forall2_in _ _ _ _ _ Hf c' Hc') as (c & Hin & Hcc). specialize (Hpay c Hin).
        inversion Hpay as [? cn ca cm ck i fl ty s Hvf Hbase Hck|? cn ca cm ck i fl ty id' Hvf Hbase Hfit|? ? Hali]; subst.
        * inversion Hcc as [|? ? ? ? n1 a1 m1 k1 Hn1 Hv1 Hf1]; subst. eapply payload_simple; [rewrite <- (proj1 Hn1); exact Hvf|exact Hbase|].
          eapply small_shape; eassumption.
        * pose proof (IH _ Hin c' m m' id' Hcc (H10 _ Hin) (H10' _ Hc')) as Hi. rewrite !Conforms_Fits in Hi. specialize (Hi Hfit).
          inversion Hcc as [|? ? ? ? n1 a1 m1 k1 Hn1 Hv1 Hf1]; subst. eapply payload_user; [rewrite <- (proj1 Hn1); exact Hvf|exact Hbase|exact Hi].
        * apply payload_other. eapply alien_alike; eassumption.
    - inversion Hf; subst. eapply fits_tagged; [exact Htd|exact Hb|exact Htag|]. intros b' r Hin Hloc Hr.
      destruct (values_in a a' b' Hv Hin) as (b & Hin' & Hl & Hvl). rewrite <- Hvl in Hr. apply (Hval b r Hin'); [congruence|exact Hr].
    - eapply fits_prim; [exact Htd|exact Hb|]. eapply small_shape; eassumption.
  Qed.
End ConformAlike.

(** ** Written trees *)
Inductive Neat (B : nsmap) : nsstack -> wnode -> Prop :=
| n_txt : forall st s, clean s \/ s = "" -> Neat B st (WTxt s)
| n_cd : forall st s, clean s -> contains "]]>" s = false -> Neat B st (WCd s)
| n_elem : forall st n a m ks, (forall pu, In pu m -> In pu B) ->
    good_name n -> bound (declare st m :: st) n -> elabel (rname (declare st m :: st) n) = resolve B n ->
    (forall b, In b a -> good_attr (declare st m :: st) b /\ legal_attr (at_value b) = true) ->
    NoDup (map (fun b => name_repr (at_name b)) a) ->
    ntexts ks <= 1 -> (forall k, In k ks -> Neat B (declare st m :: st) k) ->
    Neat B st (WElem n a m ks).

Section Neat.
  Variable B : nsmap.
  Hypothesis Hfun : forall p u u', In (p, u) B -> In (p, u') B -> u = u'.
  Hypothesis Hgood : forall p u, In (p, u) B -> good_decl (p, u).

  Lemma neat_writable : forall w st, Neat B st w -> Writable st w.
  Proof.
    fix IH 3. intros w st H. destruct H as [st s Hs|st s Hs Hc|st n a m ks Hm Hn Hb Hl Ha Hd Ht Hk].
    - constructor. destruct Hs as [Hs| ->]; [apply Hs|reflexivity].
    - constructor; [apply Hs|exact Hc].
    - constructor; try assumption.
      + intros b Hin. apply Ha. exact Hin.
      + intros [p u] Hin. apply Hgood. apply Hm. apply (declare_in st). exact Hin.
      + intros k Hin. apply IH. apply Hk. exact Hin.
  Qed.

  Lemma within_agreeing : forall st, within B st -> agreeing st.
  Proof. intros st H m p u Hin Hg. apply (within_in B Hfun); [exact H|]. exists m. split; [exact Hin|]. apply ns_get_in. exact Hg. Qed.

  Lemma rkid_few : forall st ks, ntexts ks <= 1 -> few (flat_map (rkid st) ks).
  Proof.
    intros st ks H. unfold few, ntexts in *.
    enough (List.length (filter is_txt (flat_map (rkid st) ks)) <= List.length (filter some_text ks)) by lia. clear H.
    assert (Hs : forall s, List.length (filter is_txt (text_node s)) <= if String.eqb s "" then 0 else 1).
    { intros s. destruct (String.eqb_spec s "") as [->|_]; [cbn; lia|]. unfold text_node. destruct (str_nonws s); cbn; lia. }
    induction ks as [|k ks IH]; [cbn; lia|]. cbn [flat_map filter]. rewrite filter_app, app_length.
    destruct k as [n a m l|s|s]; cbn [rkid some_text]; [cbn; lia| |]; specialize (Hs s); destruct (String.eqb s ""); cbn [negb List.length]; lia.
  Qed.

  Lemma neat_rewritable : forall w st, Neat B st w -> within B st -> forall k, In k (rkid st w) -> Rewritable (squash st) k.
  Proof.
    fix IH 3. intros w st H. destruct H as [st s Hs|st s Hs Hc|st n a m ks Hm Hn Hb Hl Ha Hd Ht Hk]; intros Hst k Hin; cbn [rkid] in Hin.
    - destruct Hs as [Hs| ->]; [|destruct Hin]. rewrite (clean_node _ Hs) in Hin. destruct Hin as [<-|[]]. constructor. exact Hs.
    - rewrite (clean_node _ Hs) in Hin. destruct Hin as [<-|[]]. constructor. exact Hs.
    - destruct Hin as [<-|[]]. rewrite reread_elem. set (st' := declare st m :: st) in *.
      assert (Hst' : within B st') by (apply declare_within; assumption).
      assert (Hsq : forall p, nss_get [squash st'] p = nss_get st' p) by (intros p; rewrite one_get; apply squash_get).
      assert (IH' : forall c, In c ks -> forall k, In k (rkid st' c) -> Rewritable (squash st') k) by (intros c Hc; apply IH; [apply Hk; exact Hc|exact Hst']).
      rewrite reread_few; [|left; reflexivity|exact Ht]. rewrite empty_node. cbn [app]. constructor.
      + apply squash_sorted.
      + intros p u. rewrite !squash_get. apply (get_extend B Hfun); assumption.
      + intros [p u] Hpu. apply in_squash in Hpu. destruct Hpu as (m' & Hm' & Hpu). apply Hgood. apply (Hst' m'); assumption.
      + apply good_rname. exact Hn.
      + apply (bound_get st'); [symmetry; apply Hsq|]. unfold bound, rname in *. destruct (n_prefix n); cbn [n_prefix]; [exact Hb|exact I].
      + rewrite (rname_get [squash st'] st') by exact Hsq. symmetry. apply rname_rname.
      + intros b Hin. apply in_map_iff in Hin. destruct Hin as (c & <- & Hc). destruct (Ha c Hc) as [H1 H2].
        apply good_rattr; [exact H1|symmetry; apply Hsq|exact H2].
      + rewrite map_reprs. exact Hd.
      + apply rkid_few. exact Ht.
      + intros k Hin. apply in_flat_map in Hin. destruct Hin as (c & Hc & Hin). apply (IH' c Hc). exact Hin.
  Qed.
End Neat.
