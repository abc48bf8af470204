(** * C65: programs that do not have the new fields. *)
From Verif Require Import Str Num Xml XmlText Reader Schema De RunFacts SpecTree TreeFacts TreeProofs
  SpecText TextProofs SpecValue ValueProofs SpecStruct StructProofs StructReads StableProofs SpecEvolve SpecMove SpecSpread RowProofs SpreadProofs
  SpecComplete SpecDeclared SpecTrim.
Open Scope list_scope.

(** ** If the second outcome is a value, so is the first, a related one *)
Definition follows {A B} (R : A -> B -> Prop) (o : outcome A) (o' : outcome B) : Prop :=
  forall v', o' = OOk v' -> exists v, o = OOk v /\ R v v'.

Lemma f_ok : forall A B (R : A -> B -> Prop) a b, R a b -> follows R (OOk a) (OOk b).
Proof. intros A B R a b H v Hv. inversion Hv; subst. eauto. Qed.
Lemma f_no : forall A B (R : A -> B -> Prop) o o', (forall v, o' <> OOk v) -> follows R o o'.
Proof. intros A B R o o' H v Hv. exfalso. eapply H; eassumption. Qed.
Lemma f_bind : forall A B C D (R : A -> B -> Prop) (S : C -> D -> Prop) o o' k k', follows R o o' ->
  (forall a b, R a b -> follows S (k a) (k' b)) -> follows S (obind o k) (obind o' k').
Proof.
  intros A B C D R S o o' k k' H Hk v Hv. apply obind_ok in Hv. destruct Hv as (b & Hb & Hv).
  destruct (H b Hb) as (a & Ha & Hab). rewrite Ha. apply (Hk a b Hab v Hv).
Qed.
Lemma f_collect : forall A B C (R : B -> C -> Prop) (g : A -> outcome (list B)) (g' : A -> outcome (list C)) l,
  (forall a, In a l -> follows (Forall2 R) (g a) (g' a)) -> follows (Forall2 R) (ocollect g l) (ocollect g' l).
Proof.
  intros A B C R g g' l H. induction l as [|a l IH]; [apply f_ok; constructor|]. rewrite !ocollect_cons.
  eapply f_bind; [apply H; left; reflexivity|]. intros u u' Hu. eapply f_bind; [apply IH; intros b Hb; apply H; right; exact Hb|].
  intros w w' Hw. apply f_ok. apply Forall2_app; assumption.
Qed.

Lemma trimmed_lists : forall P E b l l', Forall2 (trimmed_base P E b) l l' -> trimmed_list P E b l l'.
Proof. intros P E b l l' H. induction H; constructor; assumption. Qed.
Lemma trimmed_lists_inv : forall P E b l l', trimmed_list P E b l l' -> Forall2 (trimmed_base P E b) l l'.
Proof. intros P E b l. induction l as [|v l IH]; intros l' H; inversion H; subst; constructor; auto. Qed.

(** ** Fields *)
Section Fields.
  Variables (p : list nat) (ra : yattr) (fs fs' : list field).
  Hypothesis Hg : grown_fields p ra fs fs'.

  Lemma grown_in : forall f, In f fs -> In f fs'.
  Proof.
    destruct Hg as (_ & Hp & _). clear Hg. intros f Hf. revert Hf. induction Hp as [|j g p gs Hj Hp IH]; intros [].
    - subst g. eapply nth_error_In; exact Hj.
    - auto.
  Qed.
  Lemma grown_nodup : NoDup (element_labels ra fs).
  Proof.
    destruct Hg as (Hn & Hp & Hl & _). clear Hg. revert Hn. induction Hp as [|j f p fs Hj Hp IH]; intros Hn; [constructor|].
    inversion Hn as [|? ? Hni Hnp]; subst. rewrite labels_cons. destruct (elem_fieldb f) eqn:He; [|apply IH; exact Hnp].
    constructor; [|apply IH; exact Hnp]. intros Hin. unfold element_labels in Hin. apply in_map_iff in Hin. destruct Hin as (g & Hgl & Hgi).
    apply filter_In in Hgi. destruct Hgi as [Hgi Hge]. apply Hni. clear -Hp Hgi Hge Hgl Hj Hl He.
    induction Hp as [|j' h p fs Hj' Hp IH]; [destruct Hgi|]. destruct Hgi as [->|Hgi]; [|right; apply IH; exact Hgi]. left.
    exact (labels_inj ra fs' Hl j' j g f Hj' Hj Hge He Hgl).
  Qed.
  Lemma grown_for : forall n i f, field_for ra fs n = Some (i, f) -> exists j, field_for ra fs' n = Some (j, f).
  Proof.
    intros n i f H. apply field_for_spec in H. destruct H as (Hi & Ha & Hf & Hl).
    pose proof (grown_in f (nth_error_In _ _ Hi)) as Hin. apply In_nth_error in Hin. destruct Hin as [j Hj]. exists j.
    apply field_for_at; [apply Hg|exact Hj|apply elem_fieldb_iff; split; assumption|congruence].
  Qed.
  Lemma grown_left : flattens fs = true -> forall c, is_left ra fs c = is_left ra fs' c.
  Proof.
    intros Hfl [n a m ks|s]; [|reflexivity]. cbn [is_left]. destruct (field_for ra fs n) as [[i f]|] eqn:Hf.
    - destruct (grown_for _ _ _ Hf) as [j ->]. reflexivity.
    - destruct (field_for ra fs' n) as [[j g]|] eqn:Hff; [|reflexivity]. exfalso. apply field_for_spec in Hff. destruct Hff as (Hj & Ha & Hfa & Hl).
      destruct Hg as (_ & _ & _ & Hk). pose proof (Hk Hfl g (nth_error_In _ _ Hj) (conj Ha Hfa)) as Hin. apply In_nth_error in Hin. destruct Hin as [i Hi].
      rewrite (field_for_at ra fs i g n grown_nodup Hi) in Hf; [discriminate|apply elem_fieldb_iff; split; assumption|congruence].
  Qed.
  Lemma grown_flattens : flattens fs = true -> flattens fs' = true.
  Proof.
    unfold flattens. intros H. apply existsb_exists in H. destruct H as (f & Hf & Hff). apply existsb_exists. exists f. split; [apply grown_in; exact Hf|exact Hff].
  Qed.
End Fields.

Section Trim.
  Variables (x : ext) (dv : string -> value) (P : places) (E E' : env).
  Notation x' := (with_defaults x dv).
  Hypothesis Hgrown : grown P E E'.
  Hypothesis Hcomplete : complete E.
  Hypothesis Hdef : defaults_trimmed x x' P E E'.
  Hypothesis Hopt : no_flattened_option E.

  Notation dec k := (decode x E (attr_value_at x E k) (flat_value_at x E k)).
  Notation dec' k := (decode x' E' (attr_value_at x' E' k) (flat_value_at x' E' k)).
  Notation has id := (exists td, nth_error E id = Some td).

  Lemma field_has : forall id td fs f i, struct_type E id td fs -> In f fs -> base_of (f_ty f) = BUser i -> has i.
  Proof.
    intros id td fs f i [Htd Hb] Hf Hbase. apply (Hcomplete id td i Htd). unfold mentions. rewrite Hb. exists f. split; [exact Hf|].
    destruct (f_ty f); exact Hbase.
  Qed.
  Lemma variant_has : forall id td vs df s i b t j, nth_error E id = Some td -> t_body td = DEnum vs df -> variant_for vs s = Some (i, VbNew b t) ->
    base_of t = BUser j -> has j.
  Proof.
    intros id td vs df s i b t j Htd Hb Hv Hbase. apply (Hcomplete id td j Htd). unfold mentions. rewrite Hb.
    apply variant_for_is_first in Hv. destruct Hv as (vr & (Hi & _) & Hvb & _). exists vr. split; [eapply nth_error_In; exact Hi|]. rewrite Hvb.
    destruct t; exact Hbase.
  Qed.

  (** *** Documents for the new program are documents for the old one *)
  Lemma fits_trim : forall (af af' : nat -> string -> Prop) (ff ff' : nat -> node -> Prop),
    (forall id s, has id -> af' id s -> af id s) -> (forall id r, has id -> ff' id r -> ff id r) ->
    forall t id, has id -> Fits x' E' af' ff' id t -> Fits x E af ff id t.
  Proof.
    intros af af' ff ff' Haf Hff. induction t as [s|n a m ks IH] using node_ind'; intros id [td Htd] H; [inversion H|].
    destruct (Hgrown id td Htd) as (td' & Htd' & Hname & Hat & Hb).
    destruct (t_body td) as [fs|vs df|p] eqn:Hbody; destruct (t_body td') as [fs'|vs' df'|p'] eqn:Hbody'; try contradiction.
    - pose proof (conj Htd Hbody : struct_type E id td fs) as Hst. inversion H; subst; try congruence.
      match goal with H1 : nth_error E' id = Some ?t |- _ => assert (t = td') by congruence; subst t; clear H1 end.
      match goal with H1 : t_body td' = DStruct ?t |- _ => assert (t = fs') by congruence; subst t; clear H1 end.
      match goal with H1 : _ \/ field_for _ _ _ = None |- _ => rename H1 into Hroot end.
      match goal with H1 : attrs_fine _ _ _ |- _ => rename H1 into Hattrs end.
      match goal with H1 : forall c, In c ks -> KidFits _ _ _ _ _ _ c |- _ => rename H1 into Hkids end.
      match goal with H1 : flattens _ = true -> _ |- _ => rename H1 into Hflat end. rewrite Hat in *.
      eapply fits_struct; [exact Htd|exact Hbody| | | |].
      + destruct Hroot as [Hr|Hr]; [left; rewrite Hr; unfold root_label; rewrite Hat, Hname; reflexivity|right].
        destruct (field_for (t_attrs td) fs n) as [[i f]|] eqn:Hf; [|reflexivity]. destruct (grown_for _ _ _ _ Hb _ _ _ Hf) as [j Hj]. congruence.
      + intros f b i Hf Hbin Ha Hl Hbase. pose proof (Hattrs f b i (grown_in _ _ _ _ Hb f Hf) Hbin Ha Hl Hbase) as G.
        pose proof (field_has id td fs f i Hst Hf Hbase) as Hi. destruct (f_ty f); try (apply Haf; assumption). intros s Hs. apply Haf; [exact Hi|apply G; exact Hs].
      + intros c Hc. specialize (Hkids c Hc). destruct c as [cn ca cm ck|s]; [|inversion Hkids; subst; constructor; assumption].
        destruct (field_for (t_attrs td) fs cn) as [[i f]|] eqn:Hf; [|apply kid_other; exact Hf]. destruct (grown_for _ _ _ _ Hb _ _ _ Hf) as [j Hj].
        pose proof (nth_error_In _ _ (proj1 (field_for_spec _ _ _ _ _ Hf))) as Hin.
        inversion Hkids as [|? ? ? ? ? ? i0 f0 s0 Hf0 Hbase Hns Hk0|? ? ? ? ? ? i0 f0 id0 Hf0 Hbase Hfit|]; subst; try congruence; rewrite Hj in Hf0; inversion Hf0; subst i0 f0.
        * eapply kid_simple; eassumption.
        * eapply kid_user; [exact Hf|exact Hbase|]. apply (IH _ Hc); [|exact Hfit]. eapply field_has; eassumption.
      + intros Hfl. destruct (Hflat (grown_flattens _ _ _ _ Hb Hfl)) as [Hrest Htidy]. split.
        * intros f Hf Hfff. destruct (Hrest f (grown_in _ _ _ _ Hb f Hf) Hfff) as (i & Hty & Hfine). exists i. split; [exact Hty|].
          rewrite (filter_ext _ _ (grown_left _ _ _ _ Hb Hfl)). apply Hff; [|exact Hfine].
          apply (field_has id td fs f i Hst Hf). destruct Hty as [Hty|Hty]; rewrite Hty; reflexivity.
        * intros c Hc. specialize (Htidy c Hc). destruct c as [cn ca cm ck|s]; [|exact I]. cbn [Tidy] in *. intros i f Hf.
          destruct (grown_for _ _ _ _ Hb _ _ _ Hf) as [j Hj]. specialize (Htidy j f Hj).
          pose proof (nth_error_In _ _ (proj1 (field_for_spec _ _ _ _ _ Hf))) as Hin.
          destruct (base_of (f_ty f)) as [s|i1] eqn:Hbase.
          -- destruct Htidy as (t & v & Hck & Hv). exists t, v. split; [exact Hck|]. rewrite visit_spread in Hv. exact Hv.
          -- destruct (field_has id td fs f i1 Hst Hin Hbase) as [t1 Ht1]. exists t1. split; [exact Ht1|].
             destruct Htidy as (t1' & Ht1' & Hm). destruct (Hgrown i1 t1 Ht1) as (t2 & Ht2 & _ & Hat1 & Hb1). assert (t1' = t2) by congruence. subst t1'.
             rewrite Hat1 in Hm. destruct (t_body t1), (t_body t2); try contradiction; subst; exact Hm.
    - subst vs'. inversion H; subst; try congruence.
      + match goal with H1 : nth_error E' id = Some ?t |- _ => assert (t = td') by congruence; subst t; clear H1 end.
        rewrite Hbody' in *. match goal with H1 : DEnum _ _ = DEnum _ _ |- _ => inversion H1; subst; clear H1 end. rewrite Hat in *.
        eapply fits_unit; eassumption.
      + match goal with H1 : nth_error E' id = Some ?t |- _ => assert (t = td') by congruence; subst t; clear H1 end.
        rewrite Hbody' in *. match goal with H1 : DEnum _ _ = DEnum _ _ |- _ => inversion H1; subst; clear H1 end. rewrite Hat in *.
        eapply fits_payload; try eassumption. intros c Hc.
        match goal with H1 : forall k, In k ks -> PayloadFits _ _ _ _ _ k |- _ => specialize (H1 c Hc); inversion H1; subst end.
        * eapply payload_simple; eassumption.
        * eapply payload_user; [eassumption|eassumption|]. apply (IH _ Hc); [|assumption]. eapply variant_has; eassumption.
        * apply payload_other. assumption.
      + match goal with H1 : nth_error E' id = Some ?t |- _ => assert (t = td') by congruence; subst t; clear H1 end.
        rewrite Hbody' in *. match goal with H1 : DEnum _ _ = DEnum _ _ |- _ => inversion H1; subst; clear H1 end. rewrite Hat in *.
        eapply fits_tagged; eassumption.
    - inversion H; subst; try congruence. eapply fits_prim; eassumption.
  Qed.

  Theorem conforms_trim : forall k id t, has id -> Conforms x' E' k id t -> Conforms x E k id t.
  Proof.
    induction k as [|k IHk]; intros id t Hid H; rewrite Conforms_Fits in *.
    - eapply fits_trim; [| |exact Hid|exact H]; intros i s _ [].
    - eapply fits_trim; [| |exact Hid|exact H].
      + intros i s [ti Hti] (td & u & Htd & Hident & Hs & Hl & Hc). destruct (Hgrown i ti Hti) as (td2 & Htd2 & Hname & _). assert (td2 = td) by congruence. subst td2.
        exists ti, u. rewrite <- Hname. split; [exact Hti|]. split; [exact Hident|]. split; [exact Hs|]. split; [exact Hl|].
        apply IHk; [eauto|]. unfold wrapped in *. rewrite <- Hname. exact Hc.
      + intros i r Hi [Hw Hc]. split; [exact Hw|]. apply IHk; assumption.
  Qed.

  (** *** Enums and newtypes *)
  Definition cur_trim (vs : list variant) (c c' : option value) : Prop :=
    (c = None /\ c' = None) \/
    exists i va b t v w, nth_error vs i = Some va /\ v_body va = VbNew b t /\ trimmed_item P E t v w /\ c = Some (VVar i [v]) /\ c' = Some (VVar i [w]).

  Lemma store_trim : forall vs t b i va w w' c c', nth_error vs i = Some va -> v_body va = VbNew b t ->
    trimmed_base P E (base_of t) w w' -> cur_trim vs c c' -> follows (cur_trim vs) (store t i w c) (store t i w' c').
  Proof.
    intros vs t b i va w w' c c' Hi Hb Hw Hc. unfold store. destruct t as [t|t|t|t]; cbn [base_of] in Hw.
    - apply f_ok. right. exists i, va, b, (TBase t), w, w'. repeat split; auto. constructor; exact Hw.
    - apply f_ok. right. exists i, va, b, (TOpt t), (VOpt (Some w)), (VOpt (Some w')). repeat split; auto. constructor; exact Hw.
    - destruct Hc as [[-> ->]|(j & va2 & b2 & t2 & v & v2 & Hj & Hb2 & Hv & -> & ->)].
      + apply f_ok. right. exists i, va, b, (TVec t), (VVec [w]), (VVec [w']). repeat split; auto. constructor. apply trimmed_lists. constructor; [exact Hw|constructor].
      + destruct (Nat.eqb_spec i j) as [->|Hij].
        * assert (va2 = va) by congruence. subst va2. rewrite Hb in Hb2. inversion Hb2; subst b2 t2. inversion Hv; subst.
          apply f_ok. right. exists j, va, b, (TVec t). eexists; eexists. repeat split; eauto. constructor. apply trimmed_lists.
          apply Forall2_app; [apply trimmed_lists_inv; assumption|constructor; [exact Hw|constructor]].
        * apply f_no; intros z; destruct v2; try discriminate; destruct (Nat.eqb_spec i j); try congruence; discriminate.
    - apply f_ok. right. exists i, va, b, (TOptVec t), (VOpt (Some w)), (VOpt (Some w')). repeat split; auto. constructor; exact Hw.
  Qed.

  Lemma other_trim : forall k top id td n a m ks, nth_error E id = Some td -> (forall fs, t_body td <> DStruct fs) ->
    (forall vs df cn ca cm ck i b t id1, In (Elem cn ca cm ck) ks -> t_body td = DEnum vs df -> variant_for vs (n_local cn) = Some (i, VbNew b t) ->
       base_of t = BUser id1 -> ya_tag (t_attrs td) = None ->
       follows (trimmed P E id1) (dec k false id1 (Elem cn ca cm ck)) (dec' k false id1 (Elem cn ca cm ck))) ->
    follows (trimmed P E id) (dec k top id (Elem n a m ks)) (dec' k top id (Elem n a m ks)).
  Proof.
    intros k top id td n a m ks Htd Hns Hk. destruct (Hgrown id td Htd) as (td' & Htd' & Hname & Hat & Hb). cbn [decode]. rewrite Htd, Htd'.
    destruct (t_body td) as [fs|vs df|p] eqn:Hbody; [exfalso; eapply Hns; reflexivity| |].
    - destruct (t_body td') as [fs'|vs' df'|p'] eqn:Hbody'; try contradiction. subst vs'. rewrite Hat.
      destruct (bad_namespace (t_attrs td) n); [apply f_no; discriminate|].
      assert (Hdf : trimmed P E id df df') by (eapply (proj2 Hdef); eassumption).
      assert (Htv : forall s, trimmed P E id (text_variant vs df s) (text_variant vs df' s)).
      { intros s. unfold text_variant. destruct (variant_for vs s) as [[i [| |]]|] eqn:Hvf; try exact Hdf.
        apply variant_for_is_first in Hvf. destruct Hvf as (vr & (Hi & _) & Hvb & _). eapply tr_unit; eassumption. }
      destruct (ya_tag (t_attrs td)) as [tg|].
      + destruct (find _ a); [|apply f_no; discriminate]. apply f_ok, Htv.
      + assert (Hfold : follows (trimmed P E id)
            (obind (ofold (payload_given x (dec k false) vs) ks None) (fun o => OOk (or_default df o)))
            (obind (ofold (payload_given x' (dec' k false) vs) ks None) (fun o => OOk (or_default df' o)))).
        { eapply f_bind with (R := cur_trim vs).
          - assert (Hstep : forall l c c', incl l ks -> cur_trim vs c c' ->
              follows (cur_trim vs) (ofold (payload_given x (dec k false) vs) l c) (ofold (payload_given x' (dec' k false) vs) l c')).
            { induction l as [|h l IH]; intros c c' Hl Hc; [apply f_ok; exact Hc|]. cbn [ofold].
              eapply f_bind with (R := cur_trim vs); [|intros u u' Hu; apply IH; [intros z Hz; apply Hl; right; exact Hz|exact Hu]].
              destruct h as [cn ca cm ck|s]; cbn [payload_given]; [|apply f_ok; exact Hc].
              destruct (variant_for vs (n_local cn)) as [[i [|b t|]]|] eqn:Hvf; try (apply f_ok; exact Hc).
              pose proof Hvf as Hvf0. apply variant_for_is_first in Hvf. destruct Hvf as (vr & (Hi & _) & Hvb & _).
              destruct (base_of t) as [s|id1] eqn:Hbt.
              - rewrite parse_spread. destruct (parse_simple x s _) as [w|]; [|apply f_no; discriminate].
                eapply store_trim; [exact Hi|exact Hvb|rewrite Hbt; constructor|exact Hc].
              - eapply f_bind; [eapply Hk; [apply Hl; left; reflexivity|reflexivity|exact Hvf0|exact Hbt|reflexivity]|].
                intros w w' Hw. eapply store_trim; [exact Hi|exact Hvb|rewrite Hbt; constructor; exact Hw|exact Hc]. }
            apply Hstep; [intros z Hz; exact Hz|left; auto].
          - intros o o' [[-> ->]|(i & va & b & t & v & w & Hi & Hvb & Hit & -> & ->)]; apply f_ok; cbn [or_default]; [exact Hdf|].
            eapply tr_variant; eassumption. }
        destruct ks as [|[|s] [|? ?]]; try exact Hfold. apply f_ok, Htv.
    - destruct (t_body td') as [fs'|vs' df'|p'] eqn:Hbody'; try contradiction. subst p'. rewrite Hname, prim_spread.
      destruct (parse_prim x (t_name td) p _) as [v|]; [|apply f_no; discriminate]. apply f_ok. eapply tr_prim; eassumption.
  Qed.

  (** *** The value of a field *)
  Lemma last_trim : forall b l l', Forall2 (trimmed_base P E b) l l' ->
    (last_of l = None /\ last_of l' = None) \/ exists v w, last_of l = Some v /\ last_of l' = Some w /\ trimmed_base P E b v w.
  Proof.
    intros b l l' H. induction H as [|v w l l' Hv H IH]; [left; split; reflexivity|]. right.
    destruct H as [|v2 w2 l l' Hv2 H]; [exists v, w; auto|]. destruct IH as [[IH1 _]|(v3 & w3 & H1 & H2 & H3)].
    - exfalso. clear -IH1. revert v2 IH1. induction l as [|z l IHl]; intros v2 H; [discriminate|]. apply (IHl z). exact H.
    - exists v3, w3. auto.
  Qed.
  Lemma result_trim : forall id td fs f tn tn' l l' v', struct_type E id td fs -> In f fs -> Forall2 (trimmed_base P E (base_of (f_ty f))) l l' ->
    field_result x' tn' f l' = Ok v' -> exists v, field_result x tn f l = Ok v /\ trimmed_item P E (f_ty f) v v'.
  Proof.
    intros id td fs f tn tn' l l' v' Hs Hf Hl. pose proof (last_trim _ _ _ Hl) as Hlast. unfold field_result.
    destruct (f_ty f) as [b|b|b|b] eqn:Hty; cbn [base_of] in *.
    - destruct Hlast as [[-> ->]|(v & w & -> & -> & Hv)].
      + destruct (ya_default (f_attrs f)) as [g|] eqn:Hd; [|discriminate].
        pose proof (proj1 Hdef id td fs f b g Hs Hf Hty Hd) as Hg.
        intros Hu; inversion Hu; subst; eexists; (split; [reflexivity|constructor; exact Hg]).
      + intros Hu; inversion Hu; subst; eexists; (split; [reflexivity|constructor; exact Hv]).
    - destruct Hlast as [[-> ->]|(v & w & -> & -> & Hv)]; intros Hu; inversion Hu; subst; eexists; (split; [reflexivity|constructor]); exact Hv.
    - intros Hu; inversion Hu; subst; eexists; (split; [reflexivity|constructor; apply trimmed_lists; exact Hl]).
    - destruct Hlast as [[-> ->]|(v & w & -> & -> & Hv)]; intros Hu; inversion Hu; subst; eexists; (split; [reflexivity|constructor]); exact Hv.
  Qed.

  (** *** Attributes *)
  Lemma attrs_trim : forall k FS f a, In f FS ->
    (forall id s, base_of (f_ty f) = BUser id -> attr_fine_at x' E' k id s ->
       follows (trimmed P E id) (attr_value_at x E k id s) (attr_value_at x' E' k id s)) ->
    attrs_fine (attr_fine_at x' E' k) FS a ->
    follows (Forall2 (trimmed_base P E (base_of (f_ty f)))) (attrs1 x (attr_value_at x E k) f a) (attrs1 x' (attr_value_at x' E' k) f a).
  Proof.
    intros k FS f a Hin Hav Hf. unfold attrs1. destruct (ya_attribute (f_attrs f)) eqn:Ha; [|apply f_ok; constructor].
    apply f_collect. intros b Hb. unfold attr1. destruct (String.eqb_spec (n_local (at_name b)) (snd (flabel ya0 f))) as [Hl|_]; [|apply f_ok; constructor].
    assert (Hitem : forall s, (forall id, base_of (f_ty f) = BUser id -> attr_fine_at x' E' k id s) ->
      follows (Forall2 (trimmed_base P E (base_of (f_ty f)))) (obind (attr_item x (attr_value_at x E k) (base_of (f_ty f)) s) (fun v => OOk [v]))
        (obind (attr_item x' (attr_value_at x' E' k) (base_of (f_ty f)) s) (fun v => OOk [v]))).
    { intros s Hs. eapply f_bind with (R := trimmed_base P E (base_of (f_ty f))); [|intros v v' Hv; apply f_ok; constructor; [exact Hv|constructor]].
      unfold attr_item. destruct (base_of (f_ty f)) as [t|id] eqn:Hbt.
      - rewrite visit_spread. destruct (visit_simple x t s); [apply f_ok; constructor|apply f_no; discriminate].
      - intros v' Hv'. destruct (Hav id s eq_refl (Hs id eq_refl) v' Hv') as (v & Hv & Hr). exists v. split; [exact Hv|constructor; exact Hr]. }
    pose proof (fun id H => Hf f b id Hin Hb Ha Hl H) as G.
    destruct (f_ty f) as [t|t|t|t] eqn:Hty; cbn [base_of] in *; try (apply Hitem; intros id Hid; apply G; exact Hid).
    apply f_collect. intros s Hs. apply Hitem. intros id Hid. apply (G id Hid); exact Hs.
  Qed.

  (** *** Structs *)
  Lemma rows_trim : forall p fs fs' (R R' : field -> value -> Prop) vs',
    Forall2 (fun j f => nth_error fs' j = Some f) p fs -> Forall2 R' fs' vs' ->
    (forall f v', In f fs -> R' f v' -> exists v, R f v /\ trimmed_item P E (f_ty f) v v') ->
    exists vs, Forall2 R fs vs /\ trimmed_fields P E p fs vs vs'.
  Proof.
    intros p fs fs' R R' vs' Hp Hr H. induction Hp as [|j f p fs Hj Hp IH]; [exists []; split; constructor|].
    destruct IH as (vs & Hvs & Ht); [intros g v' Hg; apply H; right; exact Hg|].
    assert (Hw : exists w, nth_error vs' j = Some w /\ R' f w).
    { clear -Hj Hr. revert j Hj. induction Hr as [|g w gs ws Hg Hr IHr]; intros [|j] Hj; try discriminate; [inversion Hj; subst; exists w; auto|]. apply IHr. exact Hj. }
    destruct Hw as (w & Hw & Hrw). destruct (H f w (or_introl eq_refl) Hrw) as (v & Hv & Hi). exists (v :: vs). split; [constructor; assumption|].
    econstructor; eassumption.
  Qed.

  Theorem trim_decode : forall k t id top, has id -> Conforms x' E' k id t -> follows (trimmed P E id) (dec k top id t) (dec' k top id t).
  Proof.
    induction k as [k IHk] using (well_founded_induction lt_wf).
    induction t as [s|n a m ks IH] using node_ind'; intros id top [td Htd] Hc.
    { rewrite Conforms_Fits in Hc. inversion Hc. }
    destruct (Hgrown id td Htd) as (td' & Htd' & Hname & Hat & Hb).
    assert (Hav : forall i s, has i -> attr_fine_at x' E' k i s -> follows (trimmed P E i) (attr_value_at x E k i s) (attr_value_at x' E' k i s)).
    { destruct k as [|k]; intros i s [ti Hti] Hs; [contradiction|]. cbn [attr_fine_at attr_value_at] in *. destruct Hs as (t2 & u & Ht2 & _ & -> & Hl & Hcc).
      destruct (Hgrown i ti Hti) as (t3 & Ht3 & Hn3 & _). assert (t3 = t2) by congruence. subst t3. rewrite Hti, Ht2.
      destruct (unesc (esc_pcdata u)) as [w|] eqn:Hu; [|apply f_no; discriminate].
      assert (Hwu : w = u) by (rewrite unesc_pcdata in Hu; congruence). subst w. unfold wrapped in *. rewrite <- Hn3.
      rewrite !value_of_decode. apply (IHk k ltac:(lia)); [eauto|exact Hcc]. }
    destruct (t_body td) as [fs|vs df|p] eqn:Hbody.
    - destruct (t_body td') as [fs'|vs' df'|p'] eqn:Hbody'; try contradiction.
      pose proof (conj Htd Hbody : struct_type E id td fs) as Hst. pose proof (conj Htd' Hbody' : struct_type E' id td' fs') as Hst'.
      pose proof (grown_nodup _ _ _ _ Hb) as Hnd. pose proof (proj1 (proj2 (proj2 Hb))) as Hnd'.
      pose proof (proj1 (conforms_struct x' E' k id td' fs' _ _ _ _ Hst') Hc) as (_ & Hatf & Hkf & Hflf). rewrite Hat in *.
      intros v' Hv'. apply (decode_rows x' E' _ _ top id td' fs' n a m ks v' Hst') in Hv'; [|rewrite Hat; exact Hnd'].
      destruct Hv' as (Ht & vs' & -> & Hvs'). rewrite Hat in *.
      destruct (rows_trim (P id) fs fs' (Row x (attr_value_at x E k) (flat_value_at x E k) (t_name td) (t_attrs td) (dec k false) a ks (rest_of (t_attrs td) fs n a m ks))
        _ vs' (proj1 (proj2 Hb)) Hvs') as (vs & Hvs & Htr).
      2:{ exists (VRec vs). split; [|eapply tr_struct; eassumption]. apply (decode_rows x E _ _ top id td fs n a m ks _ Hst Hnd). split; [exact Ht|eauto]. }
      intros f v' Hf (la' & lk' & lf' & H1 & H2 & H3 & H4). pose proof (grown_in _ _ _ _ Hb f Hf) as Hf'.
      destruct (attrs_trim k fs' f a Hf' (fun i s Hbi => Hav i s (field_has id td fs f i Hst Hf Hbi)) Hatf la' H1) as (la & Hla & Rla).
      assert (Hkid : follows (Forall2 (trimmed_base P E (base_of (f_ty f)))) (ocollect (kid1 x (dec k false) (t_attrs td) f) ks)
        (ocollect (kid1 x' (dec' k false) (t_attrs td) f) ks)).
      { apply f_collect. intros c Hin. destruct c as [cn ca cm ck|s]; cbn [kid1].
        2:{ destruct (text_fieldb f) eqn:Htf; [|apply f_ok; constructor]. apply f_ok. constructor; [|constructor].
            unfold text_fieldb in Htf. apply andb_true_iff in Htf. destruct Htf as [_ Htf]. destruct (f_ty f) as [[]|[]| |]; try discriminate Htf; constructor. }
        destruct (elem_fieldb f && label_eqb (flabel (t_attrs td) f) (elabel cn))%bool eqn:Hm; [|apply f_ok; constructor].
        apply andb_true_iff in Hm. destruct Hm as [He Hlab]. apply label_eqb_eq in Hlab.
        destruct (base_of (f_ty f)) as [s|id1] eqn:Hbase.
        { apply f_ok. unfold simple1. destruct ck as [|[|t] [|? ?]]; try constructor. rewrite visit_spread. destruct (visit_simple x s t); [|constructor].
          constructor; [constructor|constructor]. }
        eapply f_bind with (R := trimmed P E id1); [|intros v v0 Hv; apply f_ok; constructor; [constructor; exact Hv|constructor]].
        apply (IH _ Hin); [eapply field_has; eassumption|]. rewrite Conforms_Fits.
        apply In_nth_error in Hf'. destruct Hf' as [i' Hi']. pose proof (field_for_at (t_attrs td) fs' i' f cn Hnd' Hi' He ltac:(congruence)) as Hff'.
        specialize (Hkf _ Hin). inversion Hkf; subst; congruence. }
      destruct (Hkid lk' H2) as (lk & Hlk & Rlk).
      assert (Hflat : exists lf, flat1 (flat_value_at x E k) (rest_of (t_attrs td) fs n a m ks) f = OOk lf /\ Forall2 (trimmed_base P E (base_of (f_ty f))) lf lf').
      { unfold flat1 in *. destruct (flat_field f) eqn:Hff; [|inversion H3; subst; exists []; split; constructor].
        assert (Hany : flattens fs = true) by (unfold flattens; apply existsb_exists; exists f; auto).
        destruct (Hflf (grown_flattens _ _ _ _ Hb Hany)) as [Hfine _]. destruct (Hfine f Hf' Hff) as (i1 & Hty & Hfi).
        destruct Hty as [Hty|Hty].
        2:{ exfalso. unfold flat_field in Hff. apply andb_true_iff in Hff. destruct Hff as [Hff1 Hff2]. apply negb_true_iff in Hff1.
            exact (Hopt td fs f _ (nth_error_In _ _ Htd) Hbody Hf Hff1 Hff2 Hty). }
        rewrite Hty in *. cbn [base_of]. apply obind_ok in H3. destruct H3 as (w & Hw & H3). inversion H3; subst lf'.
        assert (Hrest : rest_of (t_attrs td) fs n a m ks = rest_of (t_attrs td) fs' n a m ks).
        { unfold rest_of. rewrite (filter_ext _ _ (grown_left _ _ _ _ Hb Hany)). reflexivity. }
        rewrite Hrest. destruct k as [|k]; [contradiction|]. cbn [flat_fine_at flat_value_at] in *. destruct Hfi as [_ Hcc]. rewrite value_of_decode in *.
        destruct (IHk k ltac:(lia) _ i1 true (field_has id td fs f i1 Hst Hf ltac:(rewrite Hty; reflexivity)) Hcc w Hw) as (v & Hv & Hr).
        unfold rest_of. rewrite Hv. exists [v]. split; [reflexivity|]. constructor; [constructor; exact Hr|constructor]. }
      destruct Hflat as (lf & Hlf & Rlf).
      destruct (result_trim id td fs f (t_name td) (t_name td') _ _ v' Hst Hf (Forall2_app Rla (Forall2_app Rlk Rlf)) H4) as (v & Hv & Hr).
      exists v. split; [|exact Hr]. exists la, lk, lf. auto.
    - apply (other_trim k top id td n a m ks Htd); [intros fs Hfs; congruence|].
      intros vs0 df0 cn ca cm ck i b t id1 Hin Hb0 Hvf Hbt Htag. rewrite Hbody in Hb0. inversion Hb0; subst vs0 df0.
      destruct (t_body td') as [fs'|vs' df'|p'] eqn:Hbody'; try contradiction. subst vs'.
      apply (IH _ Hin); [eapply variant_has; eassumption|]. rewrite Conforms_Fits in *. inversion Hc; subst; try congruence.
      + destruct Hin as [Hin|[]]; discriminate Hin.
      + match goal with H1 : nth_error E' id = Some ?t |- _ => assert (t = td') by congruence; subst t; clear H1 end.
        rewrite Hbody' in *. match goal with H1 : DEnum _ _ = DEnum _ _ |- _ => inversion H1; subst; clear H1 end.
        match goal with H1 : forall c, In c ks -> PayloadFits _ _ _ _ _ c |- _ => specialize (H1 _ Hin); inversion H1; subst end; try congruence.
        match goal with H1 : alien _ _ |- _ => inversion H1; congruence end.
    - apply (other_trim k top id td n a m ks Htd); [intros fs Hfs; congruence|]. intros; congruence.
  Qed.
End Trim.

Theorem trim_reads : forall x d P E E' k id n t v', grown P E E' -> complete E -> defaults_trimmed x (with_defaults x d) P E E' -> no_flattened_option E ->
  (exists td, nth_error E id = Some td) -> Conforms (with_defaults x d) E' k id t -> Reads (with_defaults x d) E' id n t (OOk v') ->
  Conforms x E k id t /\ exists v, Reads x E id n t (OOk v) /\ trimmed P E id v v'.
Proof.
  intros x d P E E' k id n t v' Hg Hc Hd Ho Hid Hcf Hr. pose proof (conforms_trim x d P E E' Hg Hc k id t Hid Hcf) as Hcf0. split; [exact Hcf0|].
  apply (read_decode _ E' k id n t _ Hcf) in Hr.
  destruct (trim_decode x d P E E' Hg Hc Hd Ho k t id (Nat.eqb n 0) Hid Hcf v' Hr) as (v & Hv & Ht).
  exists v. split; [|exact Ht]. apply (read_decode x E k id n t _ Hcf0). exact Hv.
Qed.

Theorem trim_read : forall x d P E E' k id s t, grown P E E' -> complete E -> defaults_trimmed x (with_defaults x d) P E E' -> no_flattened_option E ->
  (exists td, nth_error E id = Some td) -> markup (parse_text s) = flat t -> Conforms (with_defaults x d) E' k id t ->
  exists N, forall fuel v', N <= fuel -> from_str (with_defaults x d) E' fuel id s = OOk v' ->
    exists v, from_str x E fuel id s = OOk v /\ trimmed P E id v v'.
Proof.
  intros x d P E E' k id s t Hg Hc Hd Ho Hid Hm Hcf. pose proof (conforms_trim x d P E E' Hg Hc k id t Hid Hcf) as Hcf0.
  pose proof (trim_decode x d P E E' Hg Hc Hd Ho k t id true Hid Hcf) as Ht.
  destruct (proj2 (read_decode x E k id 0 t _ Hcf0) eq_refl) as [N1 H1].
  destruct (proj2 (read_decode (with_defaults x d) E' k id 0 t _ Hcf) eq_refl) as [N2 H2].
  exists (max N1 N2). intros fuel v' Hf. unfold from_str, from_events.
  destruct (parse_text s) as [evs f] eqn:Hp. unfold d_init.
  rewrite (H1 fuel ltac:(lia) evs [] f) by (rewrite app_nil_r; exact Hm).
  rewrite (H2 fuel ltac:(lia) evs [] f) by (rewrite app_nil_r; exact Hm). apply Ht.
Qed.
