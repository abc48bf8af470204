(** * C57 with flattened fields: documents that have nothing for the new
      fields. *)
From Verif Require Import Str Num Xml XmlText Reader Schema De RunFacts SpecTree TreeFacts TreeProofs
  SpecText TextProofs SpecValue ValueProofs SpecStruct StructProofs StructReads StableProofs SpecEvolve SpecMove MoveProofs
  SpecSpread RowProofs SpreadProofs SpecComplete SpecSpared.
Open Scope list_scope.

Lemma labels_once : forall ra fs,
  (forall i j f g, nth_error fs i = Some f -> nth_error fs j = Some g -> elem_fieldb f = true -> elem_fieldb g = true -> flabel ra f = flabel ra g -> i = j) ->
  NoDup (element_labels ra fs).
Proof.
  intros ra. induction fs as [|h fs IH]; intros H; [constructor|]. rewrite labels_cons.
  assert (Hr : NoDup (element_labels ra fs)).
  { apply IH. intros i j f g Hi Hj Hf Hg Hl. pose proof (H (S i) (S j) f g Hi Hj Hf Hg Hl). lia. }
  destruct (elem_fieldb h) eqn:Hh; [|exact Hr]. constructor; [|exact Hr]. intros Hin. unfold element_labels in Hin.
  apply in_map_iff in Hin. destruct Hin as (g & Hgl & Hg). apply filter_In in Hg. destruct Hg as [Hg Hge]. apply In_nth_error in Hg. destruct Hg as [j Hj].
  pose proof (H 0 (S j) h g eq_refl Hj Hh Hge (eq_sym Hgl)). discriminate.
Qed.

Section Fields.
  Variables (x' : ext) (ra : yattr) (p : plan) (fs fs' : list field).
  Hypothesis HP : rearranged_fields x' p fs fs'.
  Hypothesis Hnd' : NoDup (element_labels ra fs').
  Notation unlike n := (forall j f, nth_error p j = Some None -> nth_error fs' j = Some f -> elem_field f -> flabel ra f <> elabel n).

  Lemma mv_in : forall f, In f fs -> In f fs'.
  Proof. intros f Hf. apply In_nth_error in Hf. destruct Hf as [k Hk]. destruct (plan_at _ _ _ _ HP k f Hk) as (j & _ & Hj). eapply nth_error_In; exact Hj. Qed.
  Lemma mv_nodup : NoDup (element_labels ra fs).
  Proof.
    apply labels_once. intros i j f g Hi Hj Hf Hg Hl. destruct (plan_at _ _ _ _ HP i f Hi) as (i' & Hpi & Hi'). destruct (plan_at _ _ _ _ HP j g Hj) as (j' & Hpj & Hj').
    pose proof (labels_inj ra fs' Hnd' i' j' f g Hi' Hj' Hf Hg Hl). subst j'. congruence.
  Qed.
  Lemma mv_for : forall n i f, field_for ra fs n = Some (i, f) -> exists j, field_for ra fs' n = Some (j, f).
  Proof.
    intros n i f H. apply field_for_spec in H. destruct H as (Hi & Ha & Hf & Hl). destruct (plan_at _ _ _ _ HP i f Hi) as (j & _ & Hj). exists j.
    apply field_for_at; [exact Hnd'|exact Hj|apply elem_fieldb_iff; split; assumption|congruence].
  Qed.
  Lemma mv_none : forall n, unlike n -> field_for ra fs n = None -> field_for ra fs' n = None.
  Proof.
    intros n Hu Hn. destruct (field_for ra fs' n) as [[j f]|] eqn:Hf; [|reflexivity]. exfalso. apply field_for_spec in Hf. destruct Hf as (Hj & Ha & Hfl & Hl).
    destruct (plan_of _ _ _ _ HP j f Hj) as [[k|] Ho].
    - pose proof (plan_field _ _ _ _ HP j _ f Ho Hj) as Hk. cbn in Hk.
      rewrite (field_for_at ra fs k f n mv_nodup Hk) in Hn; [discriminate|apply elem_fieldb_iff; split; assumption|congruence].
    - apply (Hu j f Ho Hj); [split; assumption|congruence].
  Qed.
  Lemma mv_left : forall n a m ks, unlike n -> is_left ra fs (Elem n a m ks) = is_left ra fs' (Elem n a m ks).
  Proof.
    intros n a m ks Hu. cbn [is_left]. destruct (field_for ra fs n) as [[i f]|] eqn:Hf.
    - destruct (mv_for _ _ _ Hf) as [j ->]. reflexivity.
    - rewrite (mv_none n Hu Hf). reflexivity.
  Qed.
  Lemma mv_flattens : flattens fs' = flattens fs.
  Proof.
    unfold flattens. apply eq_true_iff_eq. rewrite !existsb_exists. split.
    - intros (f & Hf & Hff). apply In_nth_error in Hf. destruct Hf as [j Hj]. destruct (plan_of _ _ _ _ HP j f Hj) as [[k|] Ho];
        pose proof (plan_field _ _ _ _ HP j _ f Ho Hj) as Hk; cbn in Hk.
      + exists f. split; [eapply nth_error_In; exact Hk|exact Hff].
      + destruct Hk as [_ Hk]. congruence.
    - intros (f & Hf & Hff). exists f. split; [apply mv_in; exact Hf|exact Hff].
  Qed.
  Lemma mv_old : forall f, In f fs' -> flat_field f = true -> In f fs.
  Proof.
    intros f Hf Hff. apply In_nth_error in Hf. destruct Hf as [j Hj]. destruct (plan_of _ _ _ _ HP j f Hj) as [[k|] Ho];
      pose proof (plan_field _ _ _ _ HP j _ f Ho Hj) as Hk; cbn in Hk; [eapply nth_error_In; exact Hk|]. destruct Hk; congruence.
  Qed.

  (** Children named unlike the new fields. *)
  Lemma unlike_kids : forall td n a ks, t_attrs td = ra -> nothing_for p td fs' n a ks -> forall cn ca cm ck, In (Elem cn ca cm ck) ks -> unlike cn.
  Proof.
    intros td n a ks Hra H cn ca cm ck Hin j f Hp Hj [He _]. destruct (H j f Hp Hj) as [(_ & Hk & _) _]. destruct (Hk He) as [_ Hk']. rewrite Hra in Hk'.
    intros Hl. exact (Hk' _ _ _ _ Hin (eq_sym Hl)).
  Qed.
  Lemma left_kids : forall ks, (forall cn ca cm ck, In (Elem cn ca cm ck) ks -> unlike cn) -> filter (is_left ra fs) ks = filter (is_left ra fs') ks.
  Proof.
    intros ks H. apply filter_ext_in. intros [cn ca cm ck|s] Hin; [|reflexivity]. apply mv_left. eapply H; exact Hin.
  Qed.
End Fields.

Definition spare_attr (P : nat -> plan) (E' : env) (k : nat) (id : nat) (s : string) : Prop :=
  match k with O => False | S k' => forall td u, nth_error E' id = Some td -> s = esc_pcdata u -> Spared P E' k' id (wrapped td u) end.
Definition spare_flat (P : nat -> plan) (E' : env) (k : nat) (id : nat) (r : node) : Prop :=
  match k with O => False | S k' => Spared P E' k' id (reread [] (wn r)) end.
Lemma Spared_Spares : forall P E' k id t, Spared P E' k id t = Spares P E' (spare_attr P E' k) (spare_flat P E' k) id t.
Proof. intros P E' [|k] id t; reflexivity. Qed.

Section Spared.
  Variables (x : ext) (dv : string -> value) (P : nat -> plan) (E E' : env).
  Notation x' := (with_defaults x dv).
  Hypothesis HE : rearranged x' P E E'.
  Hypothesis Hdist : distinct_labels E'.

  Lemma new_type : forall id td, nth_error E id = Some td -> exists td', nth_error E' id = Some td' /\ rearranged_type x' (P id) td td'.
  Proof. intros id td Htd. specialize (HE id). rewrite Htd in HE. destruct (nth_error E' id) as [td'|]; [eauto|destruct HE]. Qed.

  (** *** Documents for the old program are documents for the new one *)
  Lemma fits_spared : forall (af af' sa : nat -> string -> Prop) (ff ff' sf : nat -> node -> Prop),
    (forall id s, sa id s -> af id s -> af' id s) -> (forall id r, sf id r -> ff id r -> ff' id r) ->
    forall t id, Spares P E' sa sf id t -> Fits x E af ff id t -> Fits x' E' af' ff' id t.
  Proof.
    intros af af' sa ff ff' sf Haf Hff. induction t as [s|n a m ks IH] using node_ind'; intros id Hs H; [inversion H|].
    inversion Hs as [id0 n0 a0 m0 ks0 Hst Hkid]; subst.
    destruct (nth_error E id) as [td|] eqn:Htd; [|inversion H; congruence].
    destruct (new_type id td Htd) as (td' & Htd' & Hname & Hat & Hb).
    destruct (t_body td) as [fs|vs df|q] eqn:Hbody; destruct (t_body td') as [fs'|vs' df'|q'] eqn:Hbody'; try contradiction.
    - pose proof (conj Htd' Hbody' : struct_type E' id td' fs') as Hst'. pose proof (Hdist id td' fs' Hst') as Hnd'.
      destruct (Hst td' fs' Hst') as (Hnew & Hsa & Hsf). clear Hst. inversion H; subst; try congruence.
      match goal with H1 : nth_error E id = Some ?t |- _ => assert (t = td) by congruence; subst t; clear H1 end.
      match goal with H1 : t_body td = DStruct ?t |- _ => assert (t = fs) by congruence; subst t; clear H1 end.
      match goal with H1 : _ \/ field_for _ _ _ = None |- _ => rename H1 into Hroot end.
      match goal with H1 : attrs_fine _ _ _ |- _ => rename H1 into Hattrs end.
      match goal with H1 : forall c, In c ks -> KidFits _ _ _ _ _ _ c |- _ => rename H1 into Hkids end.
      match goal with H1 : flattens _ = true -> _ |- _ => rename H1 into Hflat end.
      pose proof (unlike_kids (t_attrs td') (P id) fs' td' n a ks eq_refl Hnew) as Hunl. rewrite Hat in *.
      eapply fits_struct; [exact Htd'|exact Hbody'| | | |]; rewrite ?Hat.
      + destruct Hroot as [Hr|Hr]; [left; rewrite Hr; unfold root_label; rewrite Hat, Hname; reflexivity|].
        destruct (label_eqb (elabel n) (root_label td')) eqn:Hlr; [left; apply label_eqb_eq; exact Hlr|right].
        apply (mv_none x' (t_attrs td) (P id) fs fs' Hb Hnd' n); [|exact Hr]. intros j f Hp Hj Hel. destruct (Hnew j f Hp Hj) as [_ [Hl|Hl]]; rewrite ?Hat in *.
        * apply label_eqb_eq in Hl. congruence.
        * apply Hl; exact Hel.
      + intros f b i Hf Hbin Ha Hl Hbase. pose proof (Hsa f b i Hf Hbin Ha Hl Hbase) as G'.
        apply In_nth_error in Hf. destruct Hf as [j Hj]. destruct (plan_of _ _ _ _ Hb j f Hj) as [[k|] Ho]; pose proof (plan_field _ _ _ _ Hb j _ f Ho Hj) as Hk; cbn in Hk.
        2:{ exfalso. destruct (Hnew j f Ho Hj) as [(Hun & _) _]. exact (Hun Ha b Hbin Hl). }
        pose proof (Hattrs f b i (nth_error_In _ _ Hk) Hbin Ha Hl Hbase) as G.
        destruct (f_ty f); try (apply Haf; assumption). intros s Hss. apply Haf; [apply G'; exact Hss|apply G; exact Hss].
      + intros c Hc. specialize (Hkids c Hc). destruct c as [cn ca cm ck|s]; [|inversion Hkids; subst; constructor; assumption].
        destruct (field_for (t_attrs td) fs cn) as [[i f]|] eqn:Hf.
        * destruct (mv_for _ _ _ _ _ Hb Hnd' _ _ _ Hf) as [j Hj].
          inversion Hkids as [|? ? ? ? ? ? i0 f0 s0 Hf0 Hbase Hns Hk0|? ? ? ? ? ? i0 f0 id0 Hf0 Hbase Hfit|]; subst; try congruence; rewrite Hf in Hf0; inversion Hf0; subst i0 f0.
          -- eapply kid_simple; eassumption.
          -- eapply kid_user; [exact Hj|exact Hbase|]. apply (IH _ Hc); [|exact Hfit]. apply (Hkid _ _ _ _ _ Hc). left. exists td', fs', j, f. rewrite Hat. auto.
        * apply kid_other. exact (mv_none _ _ _ _ _ Hb Hnd' cn (Hunl _ _ _ _ Hc) Hf).
      + intros Hfl. rewrite (mv_flattens _ _ _ _ Hb) in Hfl. destruct (Hflat Hfl) as [Hrest Htidy]. split.
        * intros f Hf Hfff. destruct (Hrest f (mv_old _ _ _ _ Hb f Hf Hfff) Hfff) as (i & Hty & Hfine). exists i. split; [exact Hty|].
          rewrite (left_kids _ _ _ _ _ Hb Hnd' ks Hunl) in Hfine. apply Hff; [|exact Hfine]. apply (Hsf f i Hf Hfff). destruct Hty as [Hty|Hty]; rewrite Hty; reflexivity.
        * intros c Hc. specialize (Htidy c Hc). destruct c as [cn ca cm ck|s]; [|exact I]. cbn [Tidy] in *. intros j f Hf.
          destruct (field_for (t_attrs td) fs cn) as [[i g]|] eqn:Hg.
          2:{ rewrite (mv_none _ _ _ _ _ Hb Hnd' cn (Hunl _ _ _ _ Hc) Hg) in Hf. discriminate. }
          destruct (mv_for _ _ _ _ _ Hb Hnd' _ _ _ Hg) as [j2 Hj2]. rewrite Hf in Hj2. inversion Hj2; subst j2 g. specialize (Htidy i f eq_refl).
          destruct (base_of (f_ty f)) as [s|i1].
          -- destruct Htidy as (t & v & Hck & Hv). exists t, v. split; [exact Hck|]. rewrite visit_spread. exact Hv.
          -- destruct Htidy as (t1 & Ht1 & Hm). destruct (new_type i1 t1 Ht1) as (t2 & Ht2 & _ & Hat1 & Hb1). exists t2. split; [exact Ht2|].
             rewrite Hat1. destruct (t_body t1), (t_body t2); try contradiction; subst; exact Hm.
    - subst vs'. inversion H; subst; try congruence.
      + match goal with H1 : nth_error E id = Some ?t |- _ => assert (t = td) by congruence; subst t; clear H1 end.
        rewrite Hbody in *. match goal with H1 : DEnum _ _ = DEnum _ _ |- _ => inversion H1; subst; clear H1 end. rewrite <- Hat in *.
        eapply fits_unit; eassumption.
      + match goal with H1 : nth_error E id = Some ?t |- _ => assert (t = td) by congruence; subst t; clear H1 end.
        rewrite Hbody in *. match goal with H1 : DEnum _ _ = DEnum _ _ |- _ => inversion H1; subst; clear H1 end. rewrite <- Hat in *.
        eapply fits_payload; try eassumption. intros c Hc.
        match goal with H1 : forall k, In k ks -> PayloadFits _ _ _ _ _ k |- _ => specialize (H1 c Hc); inversion H1; subst end.
        * eapply payload_simple; eassumption.
        * eapply payload_user; [eassumption|eassumption|]. apply (IH _ Hc); [|assumption]. apply (Hkid _ _ _ _ _ Hc). right. do 6 eexists. repeat split; eassumption.
        * apply payload_other. assumption.
      + match goal with H1 : nth_error E id = Some ?t |- _ => assert (t = td) by congruence; subst t; clear H1 end.
        rewrite Hbody in *. match goal with H1 : DEnum _ _ = DEnum _ _ |- _ => inversion H1; subst; clear H1 end. rewrite <- Hat in *.
        eapply fits_tagged; eassumption.
    - inversion H; subst; try congruence. eapply fits_prim; eassumption.
  Qed.

  Theorem conforms_spared : forall k id t, Spared P E' k id t -> Conforms x E k id t -> Conforms x' E' k id t.
  Proof.
    induction k as [|k IHk]; intros id t Hs H; rewrite Conforms_Fits in *; rewrite Spared_Spares in *.
    - eapply fits_spared; [| |exact Hs|exact H]; intros i s [].
    - eapply fits_spared; [| |exact Hs|exact H].
      + intros i s Hsp (td & u & Htd & Hident & Hu & Hl & Hc). destruct (new_type i td Htd) as (td' & Htd' & Hname & _).
        exists td', u. rewrite Hname. split; [exact Htd'|]. split; [exact Hident|]. split; [exact Hu|]. split; [exact Hl|].
        apply IHk; [exact (Hsp td' u Htd' Hu)|]. unfold wrapped in *. rewrite Hname. exact Hc.
      + intros i r Hsp [Hw Hc]. split; [exact Hw|]. apply IHk; assumption.
  Qed.

  Hypothesis Hdef : defaults_moved x x' P E E'.
  Hypothesis Hopt : no_flattened_option E.
  Notation dec k := (decode x E (attr_value_at x E k) (flat_value_at x E k)).
  Notation dec' k := (decode x' E' (attr_value_at x' E' k) (flat_value_at x' E' k)).
  Notation mv := (moved x' P E E').
  Notation mb := (moved_base x' P E E').
  Notation meets := (matches True).

  Lemma moved_lists : forall b l l', Forall2 (mb b) l l' -> moved_list x' P E E' b l l'.
  Proof. intros b l l' H. induction H; constructor; assumption. Qed.
  Lemma moved_lists_inv : forall b l l', moved_list x' P E E' b l l' -> Forall2 (mb b) l l'.
  Proof. intros b l. induction l as [|v l IH]; intros l' H; inversion H; subst; constructor; auto. Qed.

  (** *** Enums and newtypes *)
  Definition cur_moved (vs : list variant) (c c' : option value) : Prop :=
    (c = None /\ c' = None) \/
    exists i va b t v w, nth_error vs i = Some va /\ v_body va = VbNew b t /\ moved_item x' P E E' t v w /\ c = Some (VVar i [v]) /\ c' = Some (VVar i [w]).

  Lemma store_moved : forall vs t b i va w w' c c', nth_error vs i = Some va -> v_body va = VbNew b t ->
    mb (base_of t) w w' -> cur_moved vs c c' -> meets (cur_moved vs) (store t i w c) (store t i w' c').
  Proof.
    intros vs t b i va w w' c c' Hi Hb Hw Hc. unfold store. destruct t as [t|t|t|t]; cbn [base_of] in Hw.
    - apply m_ok. right. exists i, va, b, (TBase t), w, w'. repeat split; auto. constructor; exact Hw.
    - apply m_ok. right. exists i, va, b, (TOpt t), (VOpt (Some w)), (VOpt (Some w')). repeat split; auto. constructor; exact Hw.
    - destruct Hc as [[-> ->]|(j & va2 & b2 & t2 & v & v2 & Hj & Hb2 & Hv & -> & ->)].
      + apply m_ok. right. exists i, va, b, (TVec t), (VVec [w]), (VVec [w']). repeat split; auto. constructor. apply moved_lists. constructor; [exact Hw|constructor].
      + destruct (Nat.eqb_spec i j) as [->|Hij].
        * assert (va2 = va) by congruence. subst va2. rewrite Hb in Hb2. inversion Hb2; subst b2 t2. inversion Hv; subst.
          apply m_ok. right. exists j, va, b, (TVec t). eexists; eexists. repeat split; eauto. constructor. apply moved_lists.
          apply Forall2_app; [apply moved_lists_inv; assumption|constructor; [exact Hw|constructor]].
        * apply m_no; intros z; destruct v, v2; try discriminate; destruct (Nat.eqb_spec i j); try congruence; discriminate.
    - apply m_ok. right. exists i, va, b, (TOptVec t), (VOpt (Some w)), (VOpt (Some w')). repeat split; auto. constructor; exact Hw.
  Qed.

  Lemma other_moved : forall k top id td n a m ks, nth_error E id = Some td -> (forall fs, t_body td <> DStruct fs) ->
    (forall vs df cn ca cm ck i b t id1, In (Elem cn ca cm ck) ks -> t_body td = DEnum vs df -> variant_for vs (n_local cn) = Some (i, VbNew b t) ->
       base_of t = BUser id1 -> ya_tag (t_attrs td) = None ->
       meets (mv id1) (dec k false id1 (Elem cn ca cm ck)) (dec' k false id1 (Elem cn ca cm ck))) ->
    meets (mv id) (dec k top id (Elem n a m ks)) (dec' k top id (Elem n a m ks)).
  Proof.
    intros k top id td n a m ks Htd Hns Hk. destruct (new_type id td Htd) as (td' & Htd' & Hname & Hat & Hb). cbn [decode]. rewrite Htd, Htd'.
    destruct (t_body td) as [fs|vs df|p] eqn:Hbody; [exfalso; eapply Hns; reflexivity| |].
    - destruct (t_body td') as [fs'|vs' df'|p'] eqn:Hbody'; try contradiction. subst vs'. rewrite Hat.
      destruct (bad_namespace (t_attrs td) n); [apply m_no; discriminate|].
      assert (Hdf : mv id df df') by (eapply (proj2 Hdef); eassumption).
      assert (Htv : forall s, mv id (text_variant vs df s) (text_variant vs df' s)).
      { intros s. unfold text_variant. destruct (variant_for vs s) as [[i [| |]]|] eqn:Hvf; try exact Hdf.
        apply variant_for_is_first in Hvf. destruct Hvf as (vr & (Hi & _) & Hvb & _). eapply m_unit; eassumption. }
      destruct (ya_tag (t_attrs td)) as [tg|].
      + destruct (find _ a); [|apply m_no; discriminate]. apply m_ok, Htv.
      + assert (Hfold : meets (mv id)
            (obind (ofold (payload_given x (dec k false) vs) ks None) (fun o => OOk (or_default df o)))
            (obind (ofold (payload_given x' (dec' k false) vs) ks None) (fun o => OOk (or_default df' o)))).
        { eapply m_bind with (R := cur_moved vs).
          - assert (Hstep : forall l c c', incl l ks -> cur_moved vs c c' ->
              meets (cur_moved vs) (ofold (payload_given x (dec k false) vs) l c) (ofold (payload_given x' (dec' k false) vs) l c')).
            { induction l as [|h l IH]; intros c c' Hl Hc; [apply m_ok; exact Hc|]. cbn [ofold].
              eapply m_bind with (R := cur_moved vs); [|intros u u' Hu; apply IH; [intros z Hz; apply Hl; right; exact Hz|exact Hu]].
              destruct h as [cn ca cm ck|s]; cbn [payload_given]; [|apply m_ok; exact Hc].
              destruct (variant_for vs (n_local cn)) as [[i [|b t|]]|] eqn:Hvf; try (apply m_ok; exact Hc).
              pose proof Hvf as Hvf0. apply variant_for_is_first in Hvf. destruct Hvf as (vr & (Hi & _) & Hvb & _).
              destruct (base_of t) as [s|id1] eqn:Hbt.
              - rewrite parse_spread. destruct (parse_simple x s _) as [w|]; [|apply m_no; discriminate].
                eapply store_moved; [exact Hi|exact Hvb|rewrite Hbt; constructor|exact Hc].
              - eapply m_bind; [eapply Hk; [apply Hl; left; reflexivity|reflexivity|exact Hvf0|exact Hbt|reflexivity]|].
                intros w w' Hw. eapply store_moved; [exact Hi|exact Hvb|rewrite Hbt; constructor; exact Hw|exact Hc]. }
            apply Hstep; [intros z Hz; exact Hz|left; auto].
          - intros o o' [[-> ->]|(i & va & b & t & v & w & Hi & Hvb & Hit & -> & ->)]; apply m_ok; cbn [or_default]; [exact Hdf|].
            eapply m_variant; eassumption. }
        destruct ks as [|[|s] [|? ?]]; try exact Hfold. apply m_ok, Htv.
    - destruct (t_body td') as [fs'|vs' df'|p'] eqn:Hbody'; try contradiction. subst p'. rewrite Hname, prim_spread.
      destruct (parse_prim x (t_name td) p _) as [v|]; [|apply m_no; discriminate]. apply m_ok. eapply m_prim; eassumption.
  Qed.

  (** *** The value of a field *)
  Lemma last_moved : forall b l l', Forall2 (mb b) l l' ->
    (last_of l = None /\ last_of l' = None) \/ exists v w, last_of l = Some v /\ last_of l' = Some w /\ mb b v w.
  Proof.
    intros b l l' H. induction H as [|v w l l' Hv H IH]; [left; split; reflexivity|]. right.
    destruct H as [|v2 w2 l l' Hv2 H]; [exists v, w; auto|]. destruct IH as [[IH1 _]|(v3 & w3 & H1 & H2 & H3)].
    - exfalso. clear -IH1. revert v2 IH1. induction l as [|z l IHl]; intros v2 H; [discriminate|]. apply (IHl z). exact H.
    - exists v3, w3. auto.
  Qed.
  Definition rmatch (R : value -> value -> Prop) (r r' : res value) : Prop := meets R (ores r) (ores r').
  Lemma result_moved : forall id td fs f tn tn' l l', struct_type E id td fs -> In f fs -> Forall2 (mb (base_of (f_ty f))) l l' ->
    rmatch (moved_item x' P E E' (f_ty f)) (field_result x tn f l) (field_result x' tn' f l').
  Proof.
    intros id td fs f tn tn' l l' Hs Hf Hl. pose proof (last_moved _ _ _ Hl) as Hlast. unfold rmatch, field_result.
    destruct (f_ty f) as [b|b|b|b] eqn:Hty; cbn [base_of] in *.
    - destruct Hlast as [[-> ->]|(v & w & -> & -> & Hv)].
      + destruct (ya_default (f_attrs f)) as [g|] eqn:Hd; [|apply m_no; discriminate].
        apply m_ok. constructor. exact (proj1 Hdef id td fs f b g Hs Hf Hty Hd).
      + apply m_ok. constructor; exact Hv.
    - destruct Hlast as [[-> ->]|(v & w & -> & -> & Hv)]; apply m_ok; constructor; exact Hv.
    - apply m_ok. constructor. apply moved_lists; exact Hl.
    - destruct Hlast as [[-> ->]|(v & w & -> & -> & Hv)]; apply m_ok; constructor; exact Hv.
  Qed.

  (** *** Attributes *)
  Lemma attrs_moved : forall k FS f a, In f FS ->
    (forall id s, base_of (f_ty f) = BUser id -> attr_fine_at x E k id s -> spare_attr P E' k id s ->
       meets (mv id) (attr_value_at x E k id s) (attr_value_at x' E' k id s)) ->
    forall FS', In f FS' -> attrs_fine (attr_fine_at x E k) FS a -> attrs_fine (spare_attr P E' k) FS' a ->
    meets (Forall2 (mb (base_of (f_ty f)))) (attrs1 x (attr_value_at x E k) f a) (attrs1 x' (attr_value_at x' E' k) f a).
  Proof.
    intros k FS f a Hin Hav FS' Hin' Hf Hsp. unfold attrs1. destruct (ya_attribute (f_attrs f)) eqn:Ha; [|apply m_ok; constructor].
    apply m_collect. intros b Hb. unfold attr1. destruct (String.eqb_spec (n_local (at_name b)) (snd (flabel ya0 f))) as [Hl|_]; [|apply m_ok; constructor].
    assert (Hitem : forall s, (forall id, base_of (f_ty f) = BUser id -> attr_fine_at x E k id s /\ spare_attr P E' k id s) ->
      meets (Forall2 (mb (base_of (f_ty f)))) (obind (attr_item x (attr_value_at x E k) (base_of (f_ty f)) s) (fun v => OOk [v]))
        (obind (attr_item x' (attr_value_at x' E' k) (base_of (f_ty f)) s) (fun v => OOk [v]))).
    { intros s Hs. eapply m_bind with (R := mb (base_of (f_ty f))); [|intros v v' Hv; apply m_ok; constructor; [exact Hv|constructor]].
      unfold attr_item. destruct (base_of (f_ty f)) as [t|id] eqn:Hbt.
      - rewrite visit_spread. destruct (visit_simple x t s); [apply m_ok; constructor|apply m_no; discriminate].
      - destruct (Hs id eq_refl) as [H1 H2]. destruct (Hav id s eq_refl H1 H2) as [F B].
        split; [intros v Hv; destruct (F v Hv) as (v' & Hv' & Hr)|intros Hw v Hv; destruct (B Hw v Hv) as (v' & Hv' & Hr)]; exists v'; (split; [exact Hv'|constructor; exact Hr]). }
    pose proof (fun id H => Hf f b id Hin Hb Ha Hl H) as G. pose proof (fun id H => Hsp f b id Hin' Hb Ha Hl H) as G'.
    destruct (f_ty f) as [t|t|t|t] eqn:Hty; cbn [base_of] in *; try (apply Hitem; intros id Hid; split; [apply G|apply G']; exact Hid).
    apply m_collect. intros s Hs. apply Hitem. intros id Hid. split; [apply (G id Hid)|apply (G' id Hid)]; exact Hs.
  Qed.

  (** *** Fields that get nothing *)
  Lemma unsupplied_row : forall av fv tn ra sub a ks rest f w, unsupplied ra f a ks -> flat_field f = false -> missing_value x' f = Some w ->
    Row x' av fv tn ra sub a ks rest f w.
  Proof.
    intros av fv tn ra sub a ks rest f w (H1 & H2 & H3) Hff Hm. exists [], [], []. split; [|split; [|split]].
    - unfold attrs1. destruct (ya_attribute (f_attrs f)) eqn:Ha; [|reflexivity]. specialize (H1 eq_refl). clear -H1. induction a as [|b a IH]; [reflexivity|].
      rewrite ocollect_cons. unfold attr1 at 1. destruct (String.eqb_spec (n_local (at_name b)) (snd (flabel ya0 f))) as [Hl|_].
      + exfalso. exact (H1 b (or_introl eq_refl) Hl).
      + cbn [obind]. rewrite IH; [reflexivity|]. intros c Hc. apply H1. right; exact Hc.
    - clear Hm. induction ks as [|c ks IH]; [reflexivity|]. rewrite ocollect_cons.
      assert (Hc : kid1 x' sub ra f c = OOk []).
      { destruct c as [n b m kk|s]; cbn [kid1].
        - destruct (elem_fieldb f && label_eqb (flabel ra f) (elabel n))%bool eqn:He; [|reflexivity]. exfalso. apply andb_true_iff in He. destruct He as [He Hl].
          apply elem_fieldb_iff in He. apply label_eqb_eq in Hl. destruct (H2 (proj1 He)) as [_ H4]. exact (H4 n b m kk (or_introl eq_refl) (eq_sym Hl)).
        - unfold text_fieldb. destruct (ya_text (f_attrs f)) eqn:Ht; [|reflexivity]. exfalso. exact (H3 eq_refl s (or_introl eq_refl)). }
      rewrite Hc. cbn [obind]. rewrite IH; [reflexivity| |].
      + intros Ha. destruct (H2 Ha) as [H4 H5]. split; [exact H4|]. intros n b m kk Hin. apply (H5 n b m kk). right; exact Hin.
      + intros Ht s Hin. exact (H3 Ht s (or_intror Hin)).
    - unfold flat1. rewrite Hff. reflexivity.
    - cbn [app]. unfold field_result, missing_value in *. destruct (f_ty f); cbn [last_of]; try (inversion Hm; reflexivity).
      destruct (ya_default (f_attrs f)); [inversion Hm; reflexivity|discriminate].
  Qed.

  (** *** Rows in their places *)
  Lemma rows_there : forall p fs fs' (R R' : field -> value -> Prop) vs, rearranged_fields x' p fs fs' -> Forall2 R fs vs ->
    (forall f v, In f fs -> R f v -> exists w, R' f w /\ moved_item x' P E E' (f_ty f) v w) ->
    (forall j f, nth_error p j = Some None -> nth_error fs' j = Some f -> exists w, R' f w /\ missing_value x' f = Some w) ->
    exists vs', Forall2 R' fs' vs' /\ moved_fields x' P E E' p fs' vs vs'.
  Proof.
    intros p fs fs' R R' vs [_ Hp] Hr Hold Hnew.
    assert (Hat : forall k f, nth_error fs k = Some f -> exists v, nth_error vs k = Some v /\ R f v).
    { clear -Hr. induction Hr as [|g w gs ws Hg Hr IH]; intros [|k] f Hk; try discriminate; [inversion Hk; subst; exists w; auto|]. apply IH. exact Hk. }
    induction Hp as [|o f p fs' Ho Hp IH]; [exists []; split; constructor|].
    destruct IH as (ws & Hws & Hm); [intros j g Hj Hg; exact (Hnew (S j) g Hj Hg)|]. destruct o as [k|].
    - destruct (Hat k f Ho) as (v & Hv & HR). destruct (Hold f v (nth_error_In _ _ Ho) HR) as (w & Hw & Hi).
      exists (w :: ws). split; [constructor; assumption|]. econstructor; eassumption.
    - destruct (Hnew 0 f eq_refl eq_refl) as (w & Hw & Hi). exists (w :: ws). split; [constructor; assumption|]. constructor; assumption.
  Qed.
  Lemma rows_back : forall p fs fs' (R R' : field -> value -> Prop) vs', rearranged_fields x' p fs fs' -> Forall2 R' fs' vs' ->
    (forall f w, In f fs -> R' f w -> exists v, R f v /\ moved_item x' P E E' (f_ty f) v w) ->
    (forall j f w, nth_error p j = Some None -> nth_error fs' j = Some f -> R' f w -> missing_value x' f = Some w) ->
    exists vs, Forall2 R fs vs /\ moved_fields x' P E E' p fs' vs vs'.
  Proof.
    intros p fs fs' R R' vs' HP Hr Hold Hnew.
    assert (Hat : forall j f, nth_error fs' j = Some f -> exists w, nth_error vs' j = Some w /\ R' f w).
    { clear -Hr. induction Hr as [|g w gs ws Hg Hr IH]; intros [|k] f Hk; try discriminate; [inversion Hk; subst; exists w; auto|]. apply IH. exact Hk. }
    assert (Hvs : forall n, n <= List.length fs -> exists vs, List.length vs = n /\
      forall k f, k < n -> nth_error fs k = Some f -> exists j v w, nth_error p j = Some (Some k) /\ nth_error vs' j = Some w /\ nth_error vs k = Some v /\ R f v /\ moved_item x' P E E' (f_ty f) v w).
    { induction n as [|n IH]; intros Hn; [exists []; split; [reflexivity|]; intros k f Hk; lia|].
      destruct (IH ltac:(lia)) as (vs & Hl & Hvs). destruct (nth_exists _ fs n ltac:(lia)) as [f Hf]. destruct (plan_at _ _ _ _ HP n f Hf) as (j & Hpj & Hj).
      destruct (Hat j f Hj) as (w & Hw & HR). destruct (Hold f w (nth_error_In _ _ Hf) HR) as (v & Hv & Hi). exists (vs ++ [v]). split; [rewrite app_length, Hl; cbn; lia|].
      intros k g Hk Hg. destruct (Nat.eq_dec k n) as [->|Hne].
      - assert (g = f) by congruence. subst g. exists j, v, w. repeat split; auto. rewrite nth_error_app2 by lia. rewrite Hl, Nat.sub_diag. reflexivity.
      - destruct (Hvs k g ltac:(lia) Hg) as (j2 & v2 & w2 & G1 & G2 & G3 & G4). exists j2, v2, w2. repeat split; try apply G4; auto. rewrite nth_error_app1 by lia. exact G3. }
    destruct (Hvs (List.length fs) (le_n _)) as (vs & Hl & H). exists vs. split.
    - apply forall2_nth; [exact Hl|]. intros k f Hk. destruct (H k f (nth_below _ _ _ _ Hk) Hk) as (j & v & w & _ & _ & Hv & HR & _). eauto.
    - apply (moved_fields_of x dv P E E'); [exact (plan_length _ _ _ _ HP)|rewrite <- (plan_length _ _ _ _ HP); clear -Hr; induction Hr; cbn; congruence|].
      intros j o f w Ho Hf Hw. destruct (Hat j f Hf) as (w2 & Hw2 & HR). assert (w2 = w) by congruence. subst w2. pose proof (plan_field _ _ _ _ HP j o f Ho Hf) as Hpf. destruct o as [k|].
      + destruct (H k f (nth_below _ _ _ _ Hpf) Hpf) as (j2 & v & w2 & Hj2 & Hw3 & Hv & _ & Hi).
        pose proof (old_once p j j2 k (plan_nodup _ _ _ _ HP) Ho Hj2). subst j2. assert (w2 = w) by congruence. subst w2. eauto.
      + exact (Hnew j f w Ho Hf HR).
  Qed.

  Theorem spared_decode : forall k t id top, Spared P E' k id t -> Conforms x E k id t -> meets (mv id) (dec k top id t) (dec' k top id t).
  Proof.
    induction k as [k IHk] using (well_founded_induction lt_wf).
    induction t as [s|n a m ks IH] using node_ind'; intros id top Hs Hc.
    { rewrite Conforms_Fits in Hc. inversion Hc. }
    pose proof Hs as Hs0. rewrite Spared_Spares in Hs0. inversion Hs0 as [id0 n0 a0 m0 ks0 Hsn Hkid]; subst. clear Hs0.
    destruct (nth_error E id) as [td|] eqn:Htd; [|rewrite Conforms_Fits in Hc; inversion Hc; congruence].
    destruct (new_type id td Htd) as (td' & Htd' & Hname & Hat & Hb).
    assert (Hav : forall i s, attr_fine_at x E k i s -> spare_attr P E' k i s -> meets (mv i) (attr_value_at x E k i s) (attr_value_at x' E' k i s)).
    { destruct k as [|k]; intros i s Hf Hsp; [contradiction|]. cbn [attr_fine_at attr_value_at spare_attr] in *. destruct Hf as (ti & u & Hti & _ & -> & Hl & Hcc).
      destruct (new_type i ti Hti) as (ti' & Hti' & Hn' & _). rewrite Hti, Hti'.
      destruct (unesc (esc_pcdata u)) as [w|] eqn:Hu; [|apply m_no; discriminate].
      assert (Hwu : w = u) by (rewrite unesc_pcdata in Hu; congruence). subst w. specialize (Hsp ti' u Hti' eq_refl). unfold wrapped in *. rewrite Hn' in *.
      rewrite !value_of_decode. apply (IHk k ltac:(lia)); assumption. }
    destruct (t_body td) as [fs|vs df|p] eqn:Hbody.
    - destruct (t_body td') as [fs'|vs' df'|p'] eqn:Hbody'; try contradiction.
      pose proof (conj Htd Hbody : struct_type E id td fs) as Hst. pose proof (conj Htd' Hbody' : struct_type E' id td' fs') as Hst'.
      pose proof (Hdist id td' fs' Hst') as Hnd'. destruct (Hsn td' fs' Hst') as (Hnew & Hsa & Hsf). clear Hsn.
      pose proof (unlike_kids (t_attrs td') (P id) fs' td' n a ks eq_refl Hnew) as Hunl.
      pose proof (proj1 (conforms_struct x E k id td fs _ _ _ _ Hst) Hc) as (_ & Hatf & Hkf & Hflf). rewrite Hat in *.
      pose proof (mv_nodup _ _ _ _ _ Hb Hnd') as Hnd.
      set (R := Row x (attr_value_at x E k) (flat_value_at x E k) (t_name td) (t_attrs td) (dec k false) a ks (rest_of (t_attrs td) fs n a m ks)).
      set (R' := Row x' (attr_value_at x' E' k) (flat_value_at x' E' k) (t_name td') (t_attrs td) (dec' k false) a ks (rest_of (t_attrs td) fs' n a m ks)).
      assert (Hrow : forall f, In f fs -> (forall v, R f v -> exists w, R' f w /\ moved_item x' P E E' (f_ty f) v w) /\
                                          (forall w, R' f w -> exists v, R f v /\ moved_item x' P E E' (f_ty f) v w)).
      { intros f Hf. pose proof (mv_in _ _ _ _ Hb f Hf) as Hf'.
        assert (Ha : meets (Forall2 (mb (base_of (f_ty f)))) (attrs1 x (attr_value_at x E k) f a) (attrs1 x' (attr_value_at x' E' k) f a)).
        { eapply attrs_moved; [exact Hf|intros i s _; apply Hav|exact Hf'|exact Hatf|exact Hsa]. }
        assert (Hk : meets (Forall2 (mb (base_of (f_ty f)))) (ocollect (kid1 x (dec k false) (t_attrs td) f) ks)
          (ocollect (kid1 x' (dec' k false) (t_attrs td) f) ks)).
        { apply m_collect. intros c Hin. destruct c as [cn ca cm ck|s]; cbn [kid1].
          2:{ destruct (text_fieldb f) eqn:Htf; [|apply m_ok; constructor]. apply m_ok. constructor; [|constructor].
              unfold text_fieldb in Htf. apply andb_true_iff in Htf. destruct Htf as [_ Htf]. destruct (f_ty f) as [[]|[]| |]; try discriminate Htf; constructor. }
          destruct (elem_fieldb f && label_eqb (flabel (t_attrs td) f) (elabel cn))%bool eqn:Hm; [|apply m_ok; constructor].
          apply andb_true_iff in Hm. destruct Hm as [He Hlab]. apply label_eqb_eq in Hlab.
          destruct (base_of (f_ty f)) as [s|id1] eqn:Hbase.
          { apply m_ok. unfold simple1. destruct ck as [|[|t] [|? ?]]; try constructor. rewrite visit_spread. destruct (visit_simple x s t); [|constructor].
            constructor; [constructor|constructor]. }
          eapply m_bind with (R := mv id1); [|intros v v0 Hv; apply m_ok; constructor; [constructor; exact Hv|constructor]].
          pose proof Hf as Hfi. apply In_nth_error in Hfi. destruct Hfi as [i Hi]. pose proof (field_for_at (t_attrs td) fs i f cn Hnd Hi He ltac:(congruence)) as Hff.
          destruct (mv_for _ _ _ _ _ Hb Hnd' _ _ _ Hff) as [j Hj].
          apply (IH _ Hin).
          - rewrite Spared_Spares. apply (Hkid _ _ _ _ _ Hin). left. exists td', fs', j, f. rewrite Hat. auto.
          - rewrite Conforms_Fits. specialize (Hkf _ Hin). inversion Hkf; subst; congruence. }
        assert (Hfl : meets (Forall2 (mb (base_of (f_ty f)))) (flat1 (flat_value_at x E k) (rest_of (t_attrs td) fs n a m ks) f)
          (flat1 (flat_value_at x' E' k) (rest_of (t_attrs td) fs' n a m ks) f)).
        { unfold flat1. destruct (flat_field f) eqn:Hff; [|apply m_ok; constructor].
          assert (Hany : flattens fs = true) by (unfold flattens; apply existsb_exists; exists f; auto).
          destruct (Hflf Hany) as [Hfine _]. destruct (Hfine f Hf Hff) as (i1 & Hty & Hfi).
          destruct Hty as [Hty|Hty].
          2:{ exfalso. unfold flat_field in Hff. apply andb_true_iff in Hff. destruct Hff as [Hff1 Hff2]. apply negb_true_iff in Hff1.
              exact (Hopt td fs f _ (nth_error_In _ _ Htd) Hbody Hf Hff1 Hff2 Hty). }
          pose proof (Hsf f i1 Hf' Hff ltac:(rewrite Hty; reflexivity)) as Hsp. rewrite Hty. cbn [base_of].
          eapply m_bind with (R := mv i1); [|intros v v0 Hv; apply m_ok; constructor; [constructor; exact Hv|constructor]].
          unfold rest_of. rewrite (left_kids _ _ _ _ _ Hb Hnd' ks Hunl) in *. destruct k as [|k]; [contradiction|]. cbn [flat_fine_at flat_value_at spare_flat] in *.
          destruct Hfi as [_ Hcc]. rewrite !value_of_decode. apply (IHk k ltac:(lia)); assumption. }
        split.
        - intros v (la & lk & lf & H1 & H2 & H3 & H4). destruct (proj1 Ha la H1) as (la' & H1' & Rla). destruct (proj1 Hk lk H2) as (lk' & H2' & Rlk). destruct (proj1 Hfl lf H3) as (lf' & H3' & Rlf).
          destruct (proj1 (result_moved id td fs f (t_name td) (t_name td') _ _ Hst Hf (Forall2_app Rla (Forall2_app Rlk Rlf))) v ltac:(rewrite H4; reflexivity)) as (w & Hw & Hi).
          exists w. split; [|exact Hi]. exists la', lk', lf'. repeat split; auto. destruct (field_result x' _ f _); inversion Hw; reflexivity.
        - intros w (la & lk & lf & H1 & H2 & H3 & H4). destruct (proj2 Ha I la H1) as (la' & H1' & Rla). destruct (proj2 Hk I lk H2) as (lk' & H2' & Rlk). destruct (proj2 Hfl I lf H3) as (lf' & H3' & Rlf).
          destruct (proj2 (result_moved id td fs f (t_name td) (t_name td') _ _ Hst Hf (Forall2_app Rla (Forall2_app Rlk Rlf))) I w ltac:(rewrite H4; reflexivity)) as (v & Hv & Hi).
          exists v. split; [|exact Hi]. exists la', lk', lf'. repeat split; auto. destruct (field_result x _ f _); inversion Hv; reflexivity. }
      assert (Hmiss : forall j f, nth_error (P id) j = Some None -> nth_error fs' j = Some f -> exists w, R' f w /\ missing_value x' f = Some w).
      { intros j f Hp Hj. destruct (plan_field _ _ _ _ Hb j _ f Hp Hj) as [Hmv Hff]. destruct (missing_value x' f) as [w|] eqn:Hw; [|congruence]. exists w. split; [|reflexivity].
        apply unsupplied_row; [|exact Hff|exact Hw]. rewrite <- Hat. exact (proj1 (Hnew j f Hp Hj)). }
      split.
      + intros v Hv. apply (decode_rows x E _ _ top id td fs n a m ks v Hst Hnd) in Hv. destruct Hv as (Ht & vs & -> & Hvs).
        destruct (rows_there (P id) fs fs' R R' vs Hb Hvs (fun f v Hf => proj1 (Hrow f Hf) v) Hmiss) as (vs' & Hvs' & Hm).
        exists (VRec vs'). split; [|eapply m_struct; try eassumption; eapply f2_length; exact Hvs].
        apply (decode_rows x' E' _ _ top id td' fs' n a m ks _ Hst'); rewrite Hat; [exact Hnd'|]. split; [exact Ht|]. exists vs'. split; [reflexivity|exact Hvs'].
      + intros _ v' Hv'. apply (decode_rows x' E' _ _ top id td' fs' n a m ks v' Hst') in Hv'; [|rewrite Hat; exact Hnd']. destruct Hv' as (Ht & vs' & -> & Hvs'). rewrite Hat in *.
        destruct (rows_back (P id) fs fs' R R' vs' Hb Hvs' (fun f w Hf => proj2 (Hrow f Hf) w)) as (vs & Hvs & Hm).
        { intros j f w Hp Hj (la & lk & lf & H1 & H2 & H3 & H4). destruct (Hmiss j f Hp Hj) as (w2 & (la2 & lk2 & lf2 & G1 & G2 & G3 & G4) & Hw2).
          rewrite Hw2. f_equal. rewrite H1 in G1. rewrite H2 in G2. rewrite H3 in G3. inversion G1; inversion G2; inversion G3; subst. rewrite H4 in G4. inversion G4; reflexivity. }
        exists (VRec vs). split; [|eapply m_struct; try eassumption; eapply f2_length; exact Hvs].
        apply (decode_rows x E _ _ top id td fs n a m ks _ Hst Hnd). split; [exact Ht|]. exists vs. split; [reflexivity|exact Hvs].
    - apply (other_moved k top id td n a m ks Htd); [intros fs Hfs; congruence|].
      intros vs0 df0 cn ca cm ck i b t id1 Hin Hb0 Hvf Hbt Htag. rewrite Hbody in Hb0. inversion Hb0; subst vs0 df0.
      destruct (t_body td') as [fs'|vs' df'|p'] eqn:Hbody'; try contradiction. subst vs'.
      apply (IH _ Hin).
      { rewrite Spared_Spares. apply (Hkid _ _ _ _ _ Hin). right. do 6 eexists. repeat split; eassumption. }
      rewrite Conforms_Fits in *. inversion Hc; subst; try congruence.
      + destruct Hin as [Hin|[]]; discriminate Hin.
      + match goal with H1 : nth_error E id = Some ?t |- _ => assert (t = td) by congruence; subst t; clear H1 end.
        rewrite Hbody in *. match goal with H1 : DEnum _ _ = DEnum _ _ |- _ => inversion H1; subst; clear H1 end.
        match goal with H1 : forall c, In c ks -> PayloadFits _ _ _ _ _ c |- _ => specialize (H1 _ Hin); inversion H1; subst end; try congruence.
        match goal with H1 : alien _ _ |- _ => inversion H1; congruence end.
    - apply (other_moved k top id td n a m ks Htd); [intros fs Hfs; congruence|]. intros; congruence.
  Qed.
End Spared.

Theorem spared_reads : forall x d P E E' k id n t, rearranged (with_defaults x d) P E E' -> defaults_moved x (with_defaults x d) P E E' ->
  distinct_labels E' -> no_flattened_option E -> Conforms x E k id t -> Spared P E' k id t ->
  Conforms (with_defaults x d) E' k id t /\
  (forall v, Reads x E id n t (OOk v) -> exists w, Reads (with_defaults x d) E' id n t (OOk w) /\ moved (with_defaults x d) P E E' id v w) /\
  (forall w, Reads (with_defaults x d) E' id n t (OOk w) -> exists v, Reads x E id n t (OOk v) /\ moved (with_defaults x d) P E E' id v w).
Proof.
  intros x d P E E' k id n t HE Hd Hl Ho Hc Hs. pose proof (conforms_spared x d P E E' HE Hl k id t Hs Hc) as Hc'. split; [exact Hc'|].
  destruct (spared_decode x d P E E' HE Hl Hd Ho k t id (Nat.eqb n 0) Hs Hc) as [F B]. split.
  - intros v Hv. apply (read_decode _ E k id n t _ Hc) in Hv. destruct (F v Hv) as (w & Hw & Hm). exists w. split; [|exact Hm]. apply (read_decode _ E' k id n t _ Hc'). exact Hw.
  - intros w Hw. apply (read_decode _ E' k id n t _ Hc') in Hw. destruct (B I w Hw) as (v & Hv & Hm). exists v. split; [|exact Hm]. apply (read_decode _ E k id n t _ Hc). exact Hv.
Qed.

Theorem spared_read : forall x d P E E' k id s t, rearranged (with_defaults x d) P E E' -> defaults_moved x (with_defaults x d) P E E' ->
  distinct_labels E' -> no_flattened_option E -> markup (parse_text s) = flat t -> Conforms x E k id t -> Spared P E' k id t ->
  exists N, forall fuel, N <= fuel ->
    (forall v, from_str x E fuel id s = OOk v -> exists w, from_str (with_defaults x d) E' fuel id s = OOk w /\ moved (with_defaults x d) P E E' id v w) /\
    (forall w, from_str (with_defaults x d) E' fuel id s = OOk w -> exists v, from_str x E fuel id s = OOk v /\ moved (with_defaults x d) P E E' id v w).
Proof.
  intros x d P E E' k id s t HE Hd Hl Ho Hm Hc Hs. pose proof (conforms_spared x d P E E' HE Hl k id t Hs Hc) as Hc'.
  destruct (spared_decode x d P E E' HE Hl Hd Ho k t id true Hs Hc) as [F B].
  destruct (proj2 (read_decode x E k id 0 t _ Hc) eq_refl) as [N1 H1].
  destruct (proj2 (read_decode (with_defaults x d) E' k id 0 t _ Hc') eq_refl) as [N2 H2].
  exists (max N1 N2). intros fuel Hf. unfold from_str, from_events.
  destruct (parse_text s) as [evs f] eqn:Hp. unfold d_init.
  rewrite (H1 fuel ltac:(lia) evs [] f) by (rewrite app_nil_r; exact Hm).
  rewrite (H2 fuel ltac:(lia) evs [] f) by (rewrite app_nil_r; exact Hm). split; [exact F|exact (B I)].
Qed.
