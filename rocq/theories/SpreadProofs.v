(** * Documents read by structs that have the fields of flattened structs in
      their place (C59). *)
From Verif Require Import Str Num Xml XmlText Reader Schema De RunFacts SpecTree TreeFacts TreeProofs
  SpecText TextProofs SpecValue ValueProofs SpecStruct StructProofs StructReads SpecRound RoundNames RoundCore SpecAlike InsertProofs
  AlikeTrees SpecRewrite RewriteProofs StableProofs SpecMove SpecComplete SpecSpread RowProofs.
Open Scope list_scope.

(** ** Outcomes that are both values, of related values, or both not *)
Definition matches (W : Prop) {A B} (R : A -> B -> Prop) (o : outcome A) (o' : outcome B) : Prop :=
  (forall v, o = OOk v -> exists v', o' = OOk v' /\ R v v') /\
  (W -> forall v', o' = OOk v' -> exists v, o = OOk v /\ R v v').

Section Matches.
  Variable W : Prop.

  Lemma m_ok : forall A B (R : A -> B -> Prop) a b, R a b -> matches W R (OOk a) (OOk b).
  Proof. intros A B R a b H. split; intros; [|]; match goal with H : OOk _ = OOk _ |- _ => inversion H; subst; eauto end. Qed.
  Lemma m_no : forall A B (R : A -> B -> Prop) o o', (forall v, o <> OOk v) -> (forall v, o' <> OOk v) -> matches W R o o'.
  Proof. intros A B R o o' H H'. split; intros; exfalso; [eapply H|eapply H']; eassumption. Qed.
  Lemma m_bind : forall A B C D (R : A -> B -> Prop) (S : C -> D -> Prop) o o' k k', matches W R o o' ->
    (forall a b, R a b -> matches W S (k a) (k' b)) -> matches W S (obind o k) (obind o' k').
  Proof.
    intros A B C D R S o o' k k' [H1 H2] Hk. split.
    - intros v Hv. apply obind_ok in Hv. destruct Hv as (a & Ha & Hv). destruct (H1 a Ha) as (b & Hb & Hab). rewrite Hb.
      apply (proj1 (Hk a b Hab) v Hv).
    - intros Hw v Hv. apply obind_ok in Hv. destruct Hv as (b & Hb & Hv). destruct (H2 Hw b Hb) as (a & Ha & Hab). rewrite Ha.
      apply (proj2 (Hk a b Hab) Hw v Hv).
  Qed.
  Lemma m_filter : forall A B C (R : B -> C -> Prop) (g : A -> outcome (list B)) (g' : A -> outcome (list C)) (q : A -> bool) l,
    (forall a, In a l -> q a = true -> matches W (Forall2 R) (g a) (g' a)) ->
    (forall a, In a l -> q a = false -> g' a = OOk []) ->
    matches W (Forall2 R) (ocollect g (filter q l)) (ocollect g' l).
  Proof.
    intros A B C R g g' q. induction l as [|a l IH]; intros H1 H2; [apply m_ok; constructor|].
    assert (Hl : matches W (Forall2 R) (ocollect g (filter q l)) (ocollect g' l)).
    { apply IH; intros b Hb; [apply H1|apply H2]; right; exact Hb. }
    cbn [filter]. rewrite (ocollect_cons _ _ g'). destruct (q a) eqn:Hq.
    - rewrite ocollect_cons. eapply m_bind; [apply (H1 a (or_introl eq_refl) Hq)|]. intros u u' Hu.
      eapply m_bind; [exact Hl|]. intros w w' Hw. apply m_ok. apply Forall2_app; assumption.
    - rewrite (H2 a (or_introl eq_refl) Hq). cbn [obind]. destruct Hl as [F B']. split.
      + intros v Hv. destruct (F v Hv) as (v' & Hv' & Hr). exists v'. rewrite Hv'. auto.
      + intros Hw v' Hv'. apply (B' Hw). destruct (ocollect g' l); try discriminate Hv'. exact Hv'.
  Qed.
  Lemma m_collect : forall A B C (R : B -> C -> Prop) (g : A -> outcome (list B)) (g' : A -> outcome (list C)) l,
    (forall a, In a l -> matches W (Forall2 R) (g a) (g' a)) -> matches W (Forall2 R) (ocollect g l) (ocollect g' l).
  Proof.
    intros A B C R g g' l H. induction l as [|a l IH]; [apply m_ok; constructor|]. rewrite !ocollect_cons.
    eapply m_bind; [apply H; left; reflexivity|]. intros u u' Hu. eapply m_bind; [apply IH; intros b Hb; apply H; right; exact Hb|].
    intros w w' Hw. apply m_ok. apply Forall2_app; assumption.
  Qed.
End Matches.

Lemma m_weaken : forall (W W' : Prop) A B (R : A -> B -> Prop) o o', (W' -> W) -> matches W R o o' -> matches W' R o o'.
Proof. intros W W' A B R o o' H [H1 H2]. split; [exact H1|]. intros Hw. apply H2, H, Hw. Qed.

(** ** Relations *)
Lemma spread_lists : forall E b l l', Forall2 (spread_base E b) l l' -> spread_list E b l l'.
Proof. intros E b l l' H. induction H; constructor; assumption. Qed.
Lemma spread_lists_inv : forall E b l l', spread_list E b l l' -> Forall2 (spread_base E b) l l'.
Proof.
  intros E b l. induction l as [|v l IH]; intros l' H; inversion H; subst; constructor; auto.
Qed.

Lemma alike_sym : forall t t', AlikeTree t t' -> AlikeTree t' t.
Proof.
  induction t as [s|n a m ks IH] using node_ind'; intros t' H; inversion H as [|? ? ? ? n' a' m' ks' Hn Hv Hf]; subst; constructor.
  - destruct Hn as [H1 H2]. split; symmetry; assumption.
  - intros l. symmetry. apply Hv.
  - clear -IH Hf. induction Hf as [|k k' ks ks' Hk Hf IHf]; constructor; [apply IH; [left; reflexivity|exact Hk]|].
    apply IHf. intros c Hc. apply IH. right; exact Hc.
Qed.

Lemma filter_twice : forall A (p q : A -> bool) l, filter p (filter q l) = filter (fun a => (q a && p a)%bool) l.
Proof.
  intros A p q l. induction l as [|a l IH]; [reflexivity|]. cbn [filter]. destruct (q a); cbn [filter andb]; [|exact IH].
  destruct (p a); [f_equal|]; exact IH.
Qed.

(** ** Labels *)
Lemma labels_app : forall ra l1 l2, element_labels ra (l1 ++ l2) = element_labels ra l1 ++ element_labels ra l2.
Proof. intros ra l1 l2. unfold element_labels. rewrite filter_app, map_app. reflexivity. Qed.
Lemma nodup_parts : forall A (l1 l2 : list A), NoDup (l1 ++ l2) -> NoDup l1 /\ NoDup l2 /\ forall a, In a l1 -> In a l2 -> False.
Proof.
  intros A l1 l2 H. induction l1 as [|a l1 IH]; cbn [app] in H; [split; [constructor|]; split; [exact H|intros a []]|].
  inversion H as [|? ? Hn Hd]; subst. destruct (IH Hd) as (H1 & H2 & H3). split; [|split; [exact H2|]].
  - constructor; [|exact H1]. intros Hin. apply Hn. apply in_or_app. left; exact Hin.
  - intros b [<-|Hb] Hb2; [apply Hn; apply in_or_app; right; exact Hb2|eapply H3; eassumption].
Qed.
Lemma flat_not_elem : forall f, flat_field f = true -> elem_fieldb f = false /\ ya_attribute (f_attrs f) = false.
Proof. intros f H. unfold flat_field, elem_fieldb in *. apply andb_true_iff in H. destruct H as [H1 H2]. rewrite H1, H2. apply negb_true_iff in H1. auto. Qed.

Section Labels.
  Variable E : env.
  Variable ra' : yattr.

  Lemma spread_labels : forall ra fs fs', SpreadFields E ra' ra fs fs' -> forall l, In l (element_labels ra fs) -> In l (element_labels ra' fs').
  Proof.
    intros ra fs fs' H. induction H as [ra|ra f fs fs' Hf Hl Ha Hs IH|ra f id td gs gs' fs fs' Hf Hty Hst Hg IHg Hs IH]; intros l Hin; [exact Hin| |].
    - rewrite labels_cons in *. rewrite <- Hl. apply in_app_or in Hin. apply in_or_app. destruct Hin as [Hin|Hin]; auto.
    - rewrite labels_cons, (proj1 (flat_not_elem f Hf)) in Hin. rewrite labels_app. apply in_or_app. right. apply IH. exact Hin.
  Qed.
  Lemma spread_nodup : forall ra fs fs', SpreadFields E ra' ra fs fs' -> NoDup (element_labels ra' fs') -> NoDup (element_labels ra fs).
  Proof.
    intros ra fs fs' H. induction H as [ra|ra f fs fs' Hf Hl Ha Hs IH|ra f id td gs gs' fs fs' Hf Hty Hst Hg IHg Hs IH]; intros Hn; [constructor| |].
    - rewrite labels_cons in *. rewrite Hl. destruct (elem_fieldb f); [|apply IH; exact Hn]. inversion Hn as [|? ? Hni Hd]; subst.
      constructor; [|apply IH; exact Hd]. intros Hin. apply Hni. eapply spread_labels; eassumption.
    - rewrite labels_app in Hn. apply nodup_parts in Hn. rewrite labels_cons, (proj1 (flat_not_elem f Hf)). apply IH, Hn.
  Qed.
  Lemma spread_no_flat : forall ra fs fs', SpreadFields E ra' ra fs fs' -> forall f, In f fs' -> flat_field f = false.
  Proof.
    intros ra fs fs' H. induction H as [ra|ra f fs fs' Hf Hl Ha Hs IH|ra f id td gs gs' fs fs' Hf Hty Hst Hg IHg Hs IH]; intros g Hin.
    - destruct Hin.
    - destruct Hin as [<-|Hin]; auto.
    - apply in_app_or in Hin. destruct Hin; auto.
  Qed.
End Labels.

Section Spread.
  Variables (x : ext) (dv : string -> value) (E E' : env).
  Notation x' := (with_defaults x dv).
  Hypothesis Htypes : spread_types E E'.
  Hypothesis Hdef : spread_defaults x x' E E'.

  Notation dec k := (decode x E (attr_value_at x E k) (flat_value_at x E k)).
  Notation dec' k := (decode x' E' (attr_value_at x' E' k) (flat_value_at x' E' k)).

  Lemma visit_spread : forall s t, visit_simple x' s t = visit_simple x s t.
  Proof. intros s t. destruct s; reflexivity. Qed.
  Lemma parse_spread : forall s t, parse_simple x' s t = parse_simple x s t.
  Proof. intros s t. destruct s; reflexivity. Qed.
  Lemma prim_spread : forall tn k t, parse_prim x' tn k t = parse_prim x tn k t.
  Proof. intros tn k t. destruct k; reflexivity. Qed.

  (** *** Enums and newtypes *)
  Definition cur_spread (vs : list variant) (c c' : option value) : Prop :=
    (c = None /\ c' = None) \/
    exists i va b t v w, nth_error vs i = Some va /\ v_body va = VbNew b t /\ spread_item E t v w /\ c = Some (VVar i [v]) /\ c' = Some (VVar i [w]).

  Lemma store_spread : forall W vs t b i va w w' c c', nth_error vs i = Some va -> v_body va = VbNew b t ->
    spread_base E (base_of t) w w' -> cur_spread vs c c' -> matches W (cur_spread vs) (store t i w c) (store t i w' c').
  Proof.
    intros W vs t b i va w w' c c' Hi Hb Hw Hc. unfold store. destruct t as [t|t|t|t]; cbn [base_of] in Hw.
    - apply m_ok. right. exists i, va, b, (TBase t), w, w'. repeat split; auto. constructor; exact Hw.
    - apply m_ok. right. exists i, va, b, (TOpt t), (VOpt (Some w)), (VOpt (Some w')). repeat split; auto. constructor; exact Hw.
    - destruct Hc as [[-> ->]|(j & va2 & b2 & t2 & v & v2 & Hj & Hb2 & Hv & -> & ->)].
      + apply m_ok. right. exists i, va, b, (TVec t), (VVec [w]), (VVec [w']). repeat split; auto. constructor. apply spread_lists. constructor; [exact Hw|constructor].
      + destruct (Nat.eqb_spec i j) as [->|Hij].
        * assert (va2 = va) by congruence. subst va2. rewrite Hb in Hb2. inversion Hb2; subst b2 t2. inversion Hv; subst.
          apply m_ok. right. exists j, va, b, (TVec t). eexists; eexists. repeat split; eauto. constructor. apply spread_lists.
          apply Forall2_app; [apply spread_lists_inv; assumption|constructor; [exact Hw|constructor]].
        * apply m_no; intros z; destruct v, v2; try discriminate; destruct (Nat.eqb_spec i j); try congruence; discriminate.
    - apply m_ok. right. exists i, va, b, (TOptVec t), (VOpt (Some w)), (VOpt (Some w')). repeat split; auto. constructor; exact Hw.
  Qed.

  Lemma other_spread : forall W k k' top id td n a m ks, nth_error E id = Some td -> (forall fs, t_body td <> DStruct fs) ->
    (forall vs df cn ca cm ck i b t id1, In (Elem cn ca cm ck) ks -> t_body td = DEnum vs df -> variant_for vs (n_local cn) = Some (i, VbNew b t) ->
       base_of t = BUser id1 -> matches W (spread E id1) (dec k false id1 (Elem cn ca cm ck)) (dec' k' false id1 (Elem cn ca cm ck))) ->
    matches W (spread E id) (dec k top id (Elem n a m ks)) (dec' k' top id (Elem n a m ks)).
  Proof.
    intros W k k' top id td n a m ks Htd Hns Hk. destruct (Htypes id td Htd) as (td' & Htd' & Hname & Hb). cbn [decode]. rewrite Htd, Htd'.
    destruct (t_body td) as [fs|vs df|p] eqn:Hbody; [exfalso; eapply Hns; reflexivity| |].
    - destruct (t_body td') as [fs'|vs' df'|p'] eqn:Hbody'; try contradiction. destruct Hb as [Hat ->]. rewrite Hat.
      destruct (bad_namespace (t_attrs td) n); [apply m_no; discriminate|].
      assert (Hdf : spread E id df df') by (eapply (proj2 Hdef); eassumption).
      assert (Htv : forall s, spread E id (text_variant vs df s) (text_variant vs df' s)).
      { intros s. unfold text_variant. destruct (variant_for vs s) as [[i [| |]]|] eqn:Hvf; try exact Hdf.
        apply variant_for_is_first in Hvf. destruct Hvf as (vr & (Hi & _) & Hvb & _). eapply sp_unit; eassumption. }
      destruct (ya_tag (t_attrs td)) as [tg|].
      + destruct (find _ a); [|apply m_no; discriminate]. apply m_ok, Htv.
      + assert (Hfold : matches W (spread E id)
            (obind (ofold (payload_given x (dec k false) vs) ks None) (fun o => OOk (or_default df o)))
            (obind (ofold (payload_given x' (dec' k' false) vs) ks None) (fun o => OOk (or_default df' o)))).
        { eapply m_bind with (R := cur_spread vs).
          - assert (Hstep : forall l c c', incl l ks -> cur_spread vs c c' ->
              matches W (cur_spread vs) (ofold (payload_given x (dec k false) vs) l c) (ofold (payload_given x' (dec' k' false) vs) l c')).
            { induction l as [|h l IH]; intros c c' Hl Hc; [apply m_ok; exact Hc|]. cbn [ofold].
              eapply m_bind with (R := cur_spread vs); [|intros u u' Hu; apply IH; [intros z Hz; apply Hl; right; exact Hz|exact Hu]].
              destruct h as [cn ca cm ck|s]; cbn [payload_given]; [|apply m_ok; exact Hc].
              destruct (variant_for vs (n_local cn)) as [[i [|b t|]]|] eqn:Hvf; try (apply m_ok; exact Hc).
              pose proof Hvf as Hvf0. apply variant_for_is_first in Hvf. destruct Hvf as (vr & (Hi & _) & Hvb & _).
              destruct (base_of t) as [s|id1] eqn:Hbt.
              - rewrite parse_spread. destruct (parse_simple x s _) as [w|]; [|apply m_no; discriminate].
                eapply store_spread; [exact Hi|exact Hvb|rewrite Hbt; constructor|exact Hc].
              - eapply m_bind; [eapply Hk; [apply Hl; left; reflexivity|reflexivity|exact Hvf0|exact Hbt]|].
                intros w w' Hw. eapply store_spread; [exact Hi|exact Hvb|rewrite Hbt; constructor; exact Hw|exact Hc]. }
            apply Hstep; [intros z Hz; exact Hz|left; auto].
          - intros o o' [[-> ->]|(i & va & b & t & v & w & Hi & Hvb & Hit & -> & ->)]; apply m_ok; cbn [or_default]; [exact Hdf|].
            eapply sp_variant; eassumption. }
        destruct ks as [|[|s] [|? ?]]; try exact Hfold. apply m_ok, Htv.
    - destruct (t_body td') as [fs'|vs' df'|p'] eqn:Hbody'; try contradiction. subst p'. rewrite Hname, prim_spread.
      destruct (parse_prim x (t_name td) p _) as [v|]; [|apply m_no; discriminate]. apply m_ok. eapply sp_prim; eassumption.
  Qed.

  (** *** Attributes *)
  Lemma attr_spread : forall W k k' id s, attr_fine_at x E k id s -> attr_fine_at x' E' k' id s -> ~ is_struct E id ->
    matches W (spread E id) (attr_value_at x E k id s) (attr_value_at x' E' k' id s).
  Proof.
    intros W [|k] [|k'] id s Hf Hf' Hns; try contradiction. cbn [attr_fine_at attr_value_at] in *.
    destruct Hf as (td & u & Htd & _). destruct (Htypes id td Htd) as (td' & Htd' & Hname & _). rewrite Htd, Htd'.
    destruct (unesc s) as [w|]; [|apply m_no; discriminate]. rewrite !value_of_decode. unfold wrapped. rewrite Hname.
    eapply other_spread; [exact Htd| |].
    - intros fs Hfs. apply Hns. exists td, fs. split; assumption.
    - intros vs df cn ca cm ck i b t id1 Hin. unfold text_node in Hin. destruct (str_nonws w); [destruct Hin as [Hin|[]]; discriminate|destruct Hin].
  Qed.

  Lemma attrs_spread : forall W k k' FS FS' f a, In f FS -> In f FS' ->
    attrs_fine (attr_fine_at x E k) FS a -> attrs_fine (attr_fine_at x' E' k') FS' a ->
    (forall id, ya_attribute (f_attrs f) = true -> base_of (f_ty f) = BUser id -> ~ is_struct E id) ->
    matches W (Forall2 (spread_base E (base_of (f_ty f)))) (attrs1 x (attr_value_at x E k) f a) (attrs1 x' (attr_value_at x' E' k') f a).
  Proof.
    intros W k k' FS FS' f a Hin Hin' Hf Hf' Hns. unfold attrs1. destruct (ya_attribute (f_attrs f)) eqn:Ha; [|apply m_ok; constructor].
    apply m_collect. intros b Hb. unfold attr1. destruct (String.eqb_spec (n_local (at_name b)) (snd (flabel ya0 f))) as [Hl|_]; [|apply m_ok; constructor].
    assert (Hitem : forall s, (forall id, base_of (f_ty f) = BUser id -> attr_fine_at x E k id s /\ attr_fine_at x' E' k' id s) ->
      matches W (Forall2 (spread_base E (base_of (f_ty f)))) (obind (attr_item x (attr_value_at x E k) (base_of (f_ty f)) s) (fun v => OOk [v]))
        (obind (attr_item x' (attr_value_at x' E' k') (base_of (f_ty f)) s) (fun v => OOk [v]))).
    { intros s Hs. eapply m_bind with (R := spread_base E (base_of (f_ty f))); [|intros v v' Hv; apply m_ok; constructor; [exact Hv|constructor]].
      unfold attr_item. destruct (base_of (f_ty f)) as [t|id] eqn:Hbt.
      - rewrite visit_spread. destruct (visit_simple x t s); [apply m_ok; constructor|apply m_no; discriminate].
      - destruct (Hs id eq_refl) as [H1 H2]. destruct (attr_spread W k k' id s H1 H2 (Hns id eq_refl eq_refl)) as [F B].
        split; [intros v Hv; destruct (F v Hv) as (v' & Hv' & Hr)|intros Hw v Hv; destruct (B Hw v Hv) as (v' & Hv' & Hr)]; exists v'; (split; [exact Hv'|constructor; exact Hr]). }
    pose proof (fun id H => Hf f b id Hin Hb Ha Hl H) as G. pose proof (fun id H => Hf' f b id Hin' Hb Ha Hl H) as G'.
    destruct (f_ty f) as [t|t|t|t] eqn:Hty; cbn [base_of] in *; try (apply Hitem; intros id Hid; split; [apply G|apply G']; exact Hid).
    apply m_collect. intros s Hs. apply Hitem. intros id Hid. split; [apply (G id Hid)|apply (G' id Hid)]; exact Hs.
  Qed.

  (** *** The value of a field *)
  Lemma last_spread : forall b l l', Forall2 (spread_base E b) l l' ->
    (last_of l = None /\ last_of l' = None) \/ exists v w, last_of l = Some v /\ last_of l' = Some w /\ spread_base E b v w.
  Proof.
    intros b l l' H. induction H as [|v w l l' Hv H IH]; [left; split; reflexivity|]. right.
    destruct H as [|v2 w2 l l' Hv2 H]; [exists v, w; auto|]. destruct IH as [[IH1 _]|(v3 & w3 & H1 & H2 & H3)].
    - exfalso. clear -IH1. revert v2 IH1. induction l as [|z l IHl]; intros v2 H; [discriminate|]. apply (IHl z). exact H.
    - exists v3, w3. auto.
  Qed.
  Lemma result_spread : forall id td fs f tn tn' l l', struct_type E id td fs -> In f fs -> Forall2 (spread_base E (base_of (f_ty f))) l l' ->
    (forall v, field_result x tn f l = Ok v -> exists v', field_result x' tn' f l' = Ok v' /\ spread_item E (f_ty f) v v') /\
    (forall v', field_result x' tn' f l' = Ok v' -> exists v, field_result x tn f l = Ok v /\ spread_item E (f_ty f) v v').
  Proof.
    intros id td fs f tn tn' l l' Hs Hf Hl. pose proof (last_spread _ _ _ Hl) as Hlast. unfold field_result.
    destruct (f_ty f) as [b|b|b|b] eqn:Hty; cbn [base_of] in *.
    - destruct Hlast as [[-> ->]|(v & w & -> & -> & Hv)].
      + destruct (ya_default (f_attrs f)) as [g|] eqn:Hd; [|split; discriminate].
        pose proof (proj1 Hdef id td fs f b g Hs Hf Hty Hd) as Hg.
        split; intros u Hu; inversion Hu; subst; eexists; (split; [reflexivity|constructor; exact Hg]).
      + split; intros u Hu; inversion Hu; subst; eexists; (split; [reflexivity|constructor; exact Hv]).
    - destruct Hlast as [[-> ->]|(v & w & -> & -> & Hv)]; split; intros u Hu; inversion Hu; subst; eexists; (split; [reflexivity|constructor]); exact Hv.
    - split; intros u Hu; inversion Hu; subst; eexists; (split; [reflexivity|constructor; apply spread_lists; exact Hl]).
    - destruct Hlast as [[-> ->]|(v & w & -> & -> & Hv)]; split; intros u Hu; inversion Hu; subst; eexists; (split; [reflexivity|constructor]); exact Hv.
  Qed.

  (** *** Struct elements *)
  Section Element.
    Variables (o : nsmap) (n : name) (a : list attr) (m : nsmap) (ks : list node).
    Hypothesis Hrw : Rewritable o (Elem n a m ks).
    Variable id0 : nat.
    Let W := Welcome E id0 (Elem n a m ks).
    Hypothesis IHks : forall c, In c ks -> forall o id k k' top, Rewritable o c -> Conforms x E k id c -> Conforms x' E' k' id c ->
      matches (Welcome E id c) (spread E id) (dec k top id c) (dec' k' top id c).
    Variables (id' : nat) (td' : typedef) (FS' : list field) (k' : nat).
    Hypothesis Hst' : struct_type E' id' td' FS'.
    Hypothesis Hc' : Conforms x' E' k' id' (Elem n a m ks).
    Hypothesis Hnd' : NoDup (element_labels (t_attrs td') FS').

    Notation row k td FS l := (Row x (attr_value_at x E k) (flat_value_at x E k) (t_name td) (t_attrs td) (dec k false) a l (rest_of (t_attrs td) FS n a m l)).
    Notation row' := (Row x' (attr_value_at x' E' k') (flat_value_at x' E' k') (t_name td') (t_attrs td') (dec' k' false) a ks (rest_of (t_attrs td') FS' n a m ks)).

    Lemma kid_spread : forall id td FS k q f c, struct_type E id td FS -> NoDup (element_labels (t_attrs td) FS) ->
      Conforms x E k id (Elem n a m (filter q ks)) -> In f FS -> In f FS' -> flabel (t_attrs td) f = flabel (t_attrs td') f ->
      In c ks -> q c = true ->
      matches W (Forall2 (spread_base E (base_of (f_ty f)))) (kid1 x (dec k false) (t_attrs td) f c) (kid1 x' (dec' k' false) (t_attrs td') f c).
    Proof.
      intros id td FS k q f c Hst Hnd Hc Hf Hf' Hl Hin Hq. pose proof Hf as Hf0. destruct c as [cn ca cm ck|s]; cbn [kid1].
      2:{ destruct (text_fieldb f) eqn:Ht; [|apply m_ok; constructor]. apply m_ok. constructor; [|constructor].
          unfold text_fieldb in Ht. apply andb_true_iff in Ht. destruct Ht as [_ Ht]. destruct (f_ty f) as [[]|[]| |]; try discriminate Ht; constructor. }
      pose proof Hl as Hl0. rewrite Hl. destruct (elem_fieldb f && label_eqb (flabel (t_attrs td') f) (elabel cn))%bool eqn:Hm; [|apply m_ok; constructor].
      apply andb_true_iff in Hm. destruct Hm as [He Hlab]. apply label_eqb_eq in Hlab.
      destruct (base_of (f_ty f)) as [s|id1] eqn:Hbase.
      { apply m_ok. unfold simple1. destruct ck as [|[|t] [|? ?]]; try constructor. rewrite visit_spread. destruct (visit_simple x s t); [|constructor].
        constructor; [constructor|constructor]. }
      eapply m_bind with (R := spread E id1); [|intros v v' Hv; apply m_ok; constructor; [constructor; exact Hv|constructor]].
      apply In_nth_error in Hf. destruct Hf as [i Hi]. apply In_nth_error in Hf'. destruct Hf' as [i' Hi'].
      pose proof (field_for_at (t_attrs td) FS i f cn Hnd Hi He ltac:(congruence)) as Hff.
      pose proof (field_for_at (t_attrs td') FS' i' f cn Hnd' Hi' He ltac:(congruence)) as Hff'.
      apply (conforms_struct x E k id td FS _ _ _ _ Hst) in Hc. destruct Hc as (_ & _ & Hk & _).
      pose proof (proj1 (conforms_struct x' E' k' id' td' FS' _ _ _ _ Hst') Hc') as (_ & _ & Hk' & _).
      specialize (Hk (Elem cn ca cm ck)). specialize (Hk' _ Hin). rewrite filter_In in Hk. specialize (Hk (conj Hin Hq)).
      assert (Hcc : Conforms x E k id1 (Elem cn ca cm ck)).
      { rewrite Conforms_Fits. inversion Hk; subst; congruence. }
      assert (Hcc' : Conforms x' E' k' id1 (Elem cn ca cm ck)).
      { rewrite Conforms_Fits. inversion Hk'; subst; congruence. }
      inversion Hrw as [|? ? ? ? ? H1 H2 H3 H4 H5 H6 H7 H8 H9 H10]; subst.
      eapply m_weaken; [|apply (IHks _ Hin m id1 k k' false (H10 _ Hin) Hcc Hcc')]. intros Hw. inversion Hw as [|? ? ? ? ? _ Hwk]; subst.
      apply Hwk; [exact Hin|]. eapply ra_field; [exact Hst|exact Hf0|congruence|exact Hbase].
    Qed.

    Lemma rows_spread : forall ra fs fs', SpreadFields E (t_attrs td') ra fs fs' ->
      forall id td FS k q, struct_type E id td FS -> t_attrs td = ra -> incl fs FS -> incl fs' FS' ->
      Conforms x E k id (Elem n a m (filter q ks)) -> NoDup (element_labels ra FS) -> NoDup (element_labels (t_attrs td') fs') ->
      (forall s, q (Txt s) = true) ->
      (forall cn ca cm ck, In (elabel cn) (element_labels (t_attrs td') fs') -> q (Elem cn ca cm ck) = true) ->
      (forall l, In l (element_labels ra FS) -> In l (element_labels (t_attrs td') fs') -> In l (element_labels ra fs)) ->
      (forall f, In f fs -> flat_field f = true -> W -> forall td1, flattened_type E td1 -> bad_namespace (t_attrs td1) n = None) ->
      (forall vs, Forall2 (row k td FS (filter q ks)) fs vs -> exists vs', Forall2 row' fs' vs' /\ spread_row E fs vs vs') /\
      (W -> forall vs', Forall2 row' fs' vs' -> exists vs, Forall2 (row k td FS (filter q ks)) fs vs /\ spread_row E fs vs vs').
    Proof.
      intros ra fs fs' Hsp. induction Hsp as [ra|ra f fs fs' Hf Hl Ha Hs IH|ra f id1 td1 gs gs' fs fs' Hf Hty Hst1 Hg IHg Hs IH];
        intros id td FS k q Hst Hra Hi Hi' Hc Hnd Hndf Hqt Hq Hlab Hwelc; subst ra.
      - split; [intros vs H|intros _ vs H]; inversion H; subst; exists []; split; constructor.
      - assert (Hf1 : In f FS) by (apply Hi; left; reflexivity). assert (Hf1' : In f FS') by (apply Hi'; left; reflexivity).
        destruct (IH id td FS k q Hst eq_refl) as [F B]; auto.
        { intros g Hg. apply Hi. right; exact Hg. }
        { intros g Hg. apply Hi'. right; exact Hg. }
        { rewrite labels_cons in Hndf. destruct (elem_fieldb f); [inversion Hndf; assumption|exact Hndf]. }
        { intros cn ca cm ck Hin. apply Hq. rewrite labels_cons. apply in_or_app. right; exact Hin. }
        { intros l Hl1 Hl2. assert (Hl3 : In l (element_labels (t_attrs td) (f :: fs))).
          { apply Hlab; [exact Hl1|]. rewrite labels_cons. apply in_or_app. right; exact Hl2. }
          rewrite labels_cons in Hl3, Hndf. destruct (elem_fieldb f); [|exact Hl3]. cbn [app] in Hl3, Hndf. destruct Hl3 as [Hl3|Hl3]; [|exact Hl3].
          exfalso. inversion Hndf as [|? ? Hni _]; subst. apply Hni. rewrite <- Hl. exact Hl2. }
        { intros g Hg. apply Hwelc. right; exact Hg. }
        pose proof (proj1 (conforms_struct x E k id td FS _ _ _ _ Hst) Hc) as (_ & Hat & _ & _).
        pose proof (proj1 (conforms_struct x' E' k' id' td' FS' _ _ _ _ Hst') Hc') as (_ & Hat' & _ & _).
        pose proof (attrs_spread W k k' FS FS' f a Hf1 Hf1' Hat Hat' Ha) as [FA BA].
        assert (Hkids : matches W (Forall2 (spread_base E (base_of (f_ty f)))) (ocollect (kid1 x (dec k false) (t_attrs td) f) (filter q ks))
          (ocollect (kid1 x' (dec' k' false) (t_attrs td') f) ks)).
        { apply m_filter.
          - intros c Hin Hqc. eapply kid_spread; eassumption.
          - intros c Hin Hqc. destruct c as [cn ca cm ck|s]; [|rewrite Hqt in Hqc; discriminate Hqc]. cbn [kid1].
            destruct (elem_fieldb f && label_eqb (flabel (t_attrs td') f) (elabel cn))%bool eqn:Hm; [|reflexivity]. exfalso.
            apply andb_true_iff in Hm. destruct Hm as [He Hm]. apply label_eqb_eq in Hm.
            rewrite Hq in Hqc; [discriminate Hqc|]. rewrite labels_cons, He, <- Hm. left; reflexivity. }
        destruct Hkids as [FK BK]. split.
        + intros vs Hvs. inversion Hvs as [|? v ? ws (la & lk & lf & H1 & H2 & H3 & H4) Hws]; subst.
          destruct (FA la H1) as (la' & H1' & Rla). destruct (FK lk H2) as (lk' & H2' & Rlk).
          unfold flat1 in H3. rewrite Hf in H3. inversion H3; subst lf. rewrite app_nil_r in H4.
          destruct (proj1 (result_spread id td FS f (t_name td) (t_name td') _ _ Hst Hf1 (Forall2_app Rla Rlk)) v H4) as (v' & Hv' & Hr).
          destruct (F ws Hws) as (ws' & Hws' & Hrow). exists (v' :: ws'). split; [|constructor; assumption]. constructor; [|exact Hws'].
          exists la', lk', []. rewrite app_nil_r. unfold flat1. rewrite Hf. auto.
        + intros Hw vs' Hvs'. inversion Hvs' as [|? v' ? ws' (la' & lk' & lf' & H1 & H2 & H3 & H4) Hws']; subst.
          destruct (BA Hw la' H1) as (la & H1' & Rla). destruct (BK Hw lk' H2) as (lk & H2' & Rlk).
          unfold flat1 in H3. rewrite Hf in H3. inversion H3; subst lf'. rewrite app_nil_r in H4.
          destruct (proj2 (result_spread id td FS f (t_name td) (t_name td') _ _ Hst Hf1 (Forall2_app Rla Rlk)) v' H4) as (v & Hv & Hr).
          destruct (B Hw ws' Hws') as (ws & Hws & Hrow). exists (v :: ws). split; [|constructor; assumption]. constructor; [|exact Hws].
          exists la, lk, []. rewrite app_nil_r. unfold flat1. rewrite Hf. auto.
      - assert (Hf1 : In f FS) by (apply Hi; left; reflexivity). destruct (flat_not_elem f Hf) as [Hfe Hfa].
        rewrite labels_app in Hndf. destruct (nodup_parts _ _ _ Hndf) as (Hnd1 & Hnd2 & Hdisj).
        destruct (IH id td FS k q Hst eq_refl) as [F B]; auto.
        { intros g Hgin. apply Hi. right; exact Hgin. }
        { intros g Hgin. apply Hi'. apply in_or_app. right; exact Hgin. }
        { intros cn ca cm ck Hin. apply Hq. rewrite labels_app. apply in_or_app. right; exact Hin. }
        { intros l Hl1 Hl2. assert (Hl3 : In l (element_labels (t_attrs td) (f :: fs))).
          { apply Hlab; [exact Hl1|]. rewrite labels_app. apply in_or_app. right; exact Hl2. }
          rewrite labels_cons, Hfe in Hl3. exact Hl3. }
        { intros g Hgin. apply Hwelc. right; exact Hgin. }
        (* the rest of the element *)
        pose proof (proj1 (conforms_struct x E k id td FS _ _ _ _ Hst) Hc) as (_ & _ & _ & Hfl).
        assert (Hany : flattens FS = true) by (unfold flattens; apply existsb_exists; exists f; auto).
        destruct (Hfl Hany) as [Hfine _]. destruct (Hfine f Hf1 Hf) as (id2 & Hty2 & Hff).
        assert (id2 = id1) by (rewrite Hty in Hty2; destruct Hty2 as [Hty2|Hty2]; congruence). subst id2.
        set (q1 := fun c => (q c && is_left (t_attrs td) FS c)%bool).
        assert (Hrest : rest_of (t_attrs td) FS n a m (filter q ks) = Elem n a m (filter q1 ks)).
        { unfold rest_of. rewrite filter_twice. reflexivity. }
        rewrite filter_twice in Hff. change (filter (fun c => (q c && is_left (t_attrs td) FS c)%bool) ks) with (filter q1 ks) in Hff.
        pose proof (rewritable_rest _ _ _ _ _ q1 Hrw) as Hr1. destruct (rest_again _ _ Hr1) as (_ & Hr2 & Hal).
        destruct k as [|k1]; [contradiction|]. cbn [flat_fine_at] in Hff. destruct Hff as [_ Hc1].
        pose proof (conforms_alike x E k1 _ _ _ _ id1 (alike_sym _ _ Hal) Hr2 Hr1 Hc1) as Hc2.
        assert (Hfv : flat_value_at x E (S k1) id1 (Elem n a m (filter q1 ks)) = dec k1 true id1 (Elem n a m (filter q1 ks))).
        { cbn [flat_value_at]. rewrite value_of_decode. destruct (rewritable_steady _ _ Hr1) as [S1 S2]. destruct (rewritable_steady _ _ Hr2) as [S1' S2'].
          symmetry. eapply decode_alike; eassumption. }
        assert (Hnd_gs : NoDup (element_labels (t_attrs td1) gs)) by (eapply spread_nodup; eassumption).
        destruct (IHg id1 td1 gs k1 q1 Hst1 eq_refl) as [FG BG]; auto.
        { intros g Hgin. exact Hgin. }
        { intros g Hgin. apply Hi'. apply in_or_app. left; exact Hgin. }
        { intros s. unfold q1. rewrite Hqt. reflexivity. }
        { intros cn ca cm ck Hin. unfold q1. rewrite Hq by (rewrite labels_app; apply in_or_app; left; exact Hin). cbn [andb is_left].
          rewrite field_for_none; [reflexivity|]. intros h Hh Hhe Heq. apply elem_fieldb_iff in Hhe.
          pose proof (element_labels_in (t_attrs td) FS h Hh Hhe) as Hhin.
          apply (Hdisj (elabel cn) Hin). eapply spread_labels; [exact Hs|].
          assert (Hl3 : In (elabel cn) (element_labels (t_attrs td) (f :: fs))).
          { apply Hlab; [rewrite <- Heq; exact Hhin|]. rewrite labels_app. apply in_or_app. left; exact Hin. }
          rewrite labels_cons, Hfe in Hl3. exact Hl3. }
        { intros g _ _. apply (Hwelc f); [left; reflexivity|exact Hf]. }
        assert (Hrowf : forall v, row (S k1) td FS (filter q ks) f v <-> dec k1 true id1 (Elem n a m (filter q1 ks)) = OOk v).
        { intros v. unfold Row. rewrite Hrest. unfold attrs1. rewrite Hfa. unfold flat1. rewrite Hf, Hty, Hfv.
          assert (Hkn : ocollect (kid1 x (dec (S k1) false) (t_attrs td) f) (filter q ks) = OOk []).
          { clear -Hfe Hty. induction (filter q ks) as [|c l IHl]; [reflexivity|]. rewrite ocollect_cons.
            assert (Hk0 : kid1 x (dec (S k1) false) (t_attrs td) f c = OOk []).
            { destruct c as [cn ca cm ck|s]; cbn [kid1]; [rewrite Hfe; reflexivity|]. unfold text_fieldb. rewrite Hty, andb_false_r. reflexivity. }
            rewrite Hk0. cbn [obind]. rewrite IHl. reflexivity. }
          split.
          - intros (la & lk & lf & H1 & H2 & H3 & H4). inversion H1; subst la. rewrite Hkn in H2. inversion H2; subst lk.
            apply obind_ok in H3. destruct H3 as (w & Hw & H3). inversion H3; subst lf. cbn [app] in H4. unfold field_result in H4. rewrite Hty in H4. cbn in H4. congruence.
          - intros Hd. exists [], [], [v]. rewrite Hd. split; [reflexivity|]. split; [exact Hkn|]. split; [reflexivity|]. unfold field_result. rewrite Hty. reflexivity. }
        split.
        + intros vs Hvs. inversion Hvs as [|? v ? ws Hv Hws]; subst. apply Hrowf in Hv.
          apply (decode_rows x E _ _ true id1 td1 gs n a m _ v Hst1 Hnd_gs) in Hv. destruct Hv as (_ & vg & -> & Hvg).
          destruct (FG vg Hvg) as (vg' & Hvg' & Rg). destruct (F ws Hws) as (ws' & Hws' & Rw).
          exists (vg' ++ ws'). split; [apply Forall2_app; assumption|]. eapply spr_flat; eassumption.
        + intros Hw vs' Hvs'. apply Forall2_app_inv_l in Hvs'. destruct Hvs' as (vg' & ws' & Hvg' & Hws' & ->).
          destruct (BG Hw vg' Hvg') as (vg & Hvg & Rg). destruct (B Hw ws' Hws') as (ws & Hws & Rw).
          exists (VRec vg :: ws). split; [|eapply spr_flat; eassumption]. constructor; [|exact Hws]. apply Hrowf.
          apply (decode_rows x E _ _ true id1 td1 gs n a m _ _ Hst1 Hnd_gs). split; [|eauto]. intros _.
          apply (Hwelc f (or_introl eq_refl) Hf Hw). exists id, td, FS, f, id1. rewrite Hty. repeat split; try apply Hst; auto. apply Hst1.
    Qed.
  End Element.

  Theorem spread_decode : forall t o id k k' top, Rewritable o t -> Conforms x E k id t -> Conforms x' E' k' id t ->
    matches (Welcome E id t) (spread E id) (dec k top id t) (dec' k' top id t).
  Proof.
    induction t as [s|n a m ks IH] using node_ind'; intros o id k k' top Hrw Hc Hc'.
    { rewrite Conforms_Fits in Hc. apply fits_elem in Hc. destruct Hc as (? & ? & ? & ? & Hc). discriminate Hc. }
    assert (Htd : exists td, nth_error E id = Some td) by (rewrite Conforms_Fits in Hc; inversion Hc; eauto).
    destruct Htd as [td Htd]. destruct (Htypes id td Htd) as (td' & Htd' & Hname & Hb).
    destruct (t_body td) as [fs|vs df|p] eqn:Hbody.
    - destruct (t_body td') as [fs'|vs' df'|p'] eqn:Hbody'; try contradiction. destruct Hb as (Hns & Hsp & Hnd).
      assert (Hst : struct_type E id td fs) by (split; assumption). assert (Hst' : struct_type E' id td' fs') by (split; assumption).
      pose proof (spread_nodup _ _ _ _ _ Hsp Hnd) as Hnd0.
      assert (Hbad : bad_namespace (t_attrs td') n = None <-> bad_namespace (t_attrs td) n = None).
      { destruct Hns as [Hp Hg]. unfold bad_namespace. destruct (n_ns n) as [u|]; [|tauto]. rewrite Hp.
        destruct (ya_prefix (t_attrs td)) as [p|]; [|split; discriminate]. rewrite (Hg p eq_refl). tauto. }
      assert (Hfull : filter (fun _ : node => true) ks = ks) by (clear; induction ks as [|c ks IHk]; [reflexivity|cbn [filter]; f_equal; exact IHk]).
      destruct (rows_spread o n a m ks Hrw id IH id td' fs' k' Hst' Hc' Hnd _ _ _ Hsp id td fs k (fun _ => true) Hst eq_refl) as [F B]; auto.
      { intros f Hf; exact Hf. } { intros f Hf; exact Hf. } { rewrite Hfull. exact Hc. }
      { intros f Hf Hff Hw. inversion Hw as [|? ? ? ? ? Hwel _]; subst. exact (Hwel td fs f Hst Hf Hff). }
      rewrite Hfull in F, B. split.
      + intros v Hv. apply (decode_rows x E _ _ top id td fs n a m ks v Hst Hnd0) in Hv. destruct Hv as (Ht & vs & -> & Hvs).
        destruct (F vs Hvs) as (vs' & Hvs' & Hr). exists (VRec vs'). split; [|eapply sp_struct; eassumption].
        apply (decode_rows x' E' _ _ top id td' fs' n a m ks _ Hst' Hnd). split; [intros H; apply Hbad, Ht, H|eauto].
      + intros Hw v' Hv'. apply (decode_rows x' E' _ _ top id td' fs' n a m ks v' Hst' Hnd) in Hv'. destruct Hv' as (Ht & vs' & -> & Hvs').
        destruct (B Hw vs' Hvs') as (vs & Hvs & Hr). exists (VRec vs). split; [|eapply sp_struct; eassumption].
        apply (decode_rows x E _ _ top id td fs n a m ks _ Hst Hnd0). split; [intros H; apply Hbad, Ht, H|eauto].
    - apply (other_spread _ k k' top id td n a m ks Htd); [intros fs Hfs; congruence|].
      intros vs0 df0 cn ca cm ck i b t id1 Hin Hb0 Hvf Hbt. rewrite Hbody in Hb0. inversion Hb0; subst vs0 df0.
      destruct (t_body td') as [fs'|vs' df'|p'] eqn:Hbody'; try contradiction. destruct Hb as [Hat ->].
      assert (Hkid : forall y F k2 td2 df2, nth_error F id = Some td2 -> t_body td2 = DEnum vs df2 -> Conforms y F k2 id (Elem n a m ks) -> Conforms y F k2 id1 (Elem cn ca cm ck)).
      { intros y F k2 td2 df2 Htd2 Hb2 Hc2. rewrite Conforms_Fits in Hc2 |- *. inversion Hc2; subst; try congruence.
        - destruct Hin as [Hin|[]]; discriminate Hin.
        - assert (td0 = td2) by congruence. subst td0. rewrite Hb2 in *. match goal with H : DEnum _ _ = DEnum _ _ |- _ => inversion H; subst end.
          match goal with H : forall c, In c ks -> PayloadFits _ _ _ _ _ c |- _ => specialize (H _ Hin); inversion H; subst end; try congruence.
          match goal with H : alien _ _ |- _ => inversion H; congruence end.
        - destruct Hin. }
      inversion Hrw as [|? ? ? ? ? H1 H2 H3 H4 H5 H6 H7 H8 H9 H10]; subst.
      eapply m_weaken; [|apply (IH _ Hin m id1 k k' false (H10 _ Hin) (Hkid _ _ _ _ _ Htd Hbody Hc) (Hkid _ _ _ _ _ Htd' Hbody' Hc'))].
      intros Hw. inversion Hw as [|? ? ? ? ? _ Hwk]; subst. apply Hwk; [exact Hin|]. eapply ra_variant; eassumption.
    - apply (other_spread _ k k' top id td n a m ks Htd); [intros fs Hfs; congruence|]. intros; congruence.
  Qed.
End Spread.

Theorem spread_read : forall x d E E' k k' id s t, spread_types E E' -> spread_defaults x (with_defaults x d) E E' ->
  markup (parse_text s) = flat t -> Rewritable [] t -> Conforms x E k id t -> Conforms (with_defaults x d) E' k' id t ->
  exists N, forall fuel, N <= fuel ->
  (forall v, from_str x E fuel id s = OOk v -> exists v', from_str (with_defaults x d) E' fuel id s = OOk v' /\ spread E id v v') /\
  (Welcome E id t -> forall v', from_str (with_defaults x d) E' fuel id s = OOk v' -> exists v, from_str x E fuel id s = OOk v /\ spread E id v v').
Proof.
  intros x d E E' k k' id s t Ht Hd Hm Hrw Hc Hc'.
  pose proof (spread_decode x d E E' Ht Hd t [] id k k' true Hrw Hc Hc') as Hsp.
  destruct (proj2 (read_decode x E k id 0 t _ Hc) eq_refl) as [N1 H1].
  destruct (proj2 (read_decode (with_defaults x d) E' k' id 0 t _ Hc') eq_refl) as [N2 H2].
  exists (max N1 N2). intros fuel Hf. unfold from_str, from_events.
  destruct (parse_text s) as [evs f] eqn:Hp. unfold d_init.
  rewrite (H1 fuel ltac:(lia) evs [] f) by (rewrite app_nil_r; exact Hm).
  rewrite (H2 fuel ltac:(lia) evs [] f) by (rewrite app_nil_r; exact Hm). exact Hsp.
Qed.
