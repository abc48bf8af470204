(** * C48: what was read can be written and read again. *)
From Verif Require Import Str Num Xml XmlText Reader Schema De RunFacts SpecReader SpecTree SpecText SpecNum NumProofs SpecTyped SpecStruct
  SpecSer SpecValue SpecRound SpecOut SpecStable TreeFacts TypedProofs SourceProofs TextProofs CleanProofs EqualProofs.
Open Scope list_scope.

Lemma variant_for_is_first : forall vs s i b, variant_for vs s = Some (i, b) ->
  exists vr, first_variant vs i vr /\ v_body vr = b /\ variant_name vr = s.
Proof.
  intros vs s i b H. rewrite <- find_variant_for in H.
  assert (G : forall ws k, (forall n v, nth_error ws n = Some v -> nth_error vs (k + n) = Some v) ->
    (forall j w, j < k -> nth_error vs j = Some w -> readable w -> variant_name w <> s) ->
    find_variant ws k s = Some (i, b) -> exists vr, first_variant vs i vr /\ v_body vr = b /\ variant_name vr = s).
  { induction ws as [|w ws IH]; intros k Hw Hk Hf; cbn [find_variant] in Hf; [discriminate|].
    pose proof (Hw 0 w eq_refl) as H0. rewrite Nat.add_0_r in H0.
    assert (Hrest : (readable w -> variant_name w <> s) -> find_variant ws (S k) s = Some (i, b) ->
      exists vr, first_variant vs i vr /\ v_body vr = b /\ variant_name vr = s).
    { intros Hn. apply IH.
      - intros n v Hv. rewrite Nat.add_succ_comm. apply Hw. exact Hv.
      - intros j u Hj Hu Hr. destruct (Nat.eq_dec j k) as [->|]; [|apply (Hk j); [lia|exact Hu|exact Hr]].
        rewrite H0 in Hu. inversion Hu; subst. auto. }
    change (xml_element_name (v_attrs w) (v_label w)) with (variant_name w) in Hf.
    destruct (v_body w) as [|fl t|l] eqn:Hb.
    3: { apply Hrest; [|exact Hf]. intros Hr. exfalso. apply (Hr l). exact Hb. }
    all: destruct (String.eqb_spec (variant_name w) s) as [He|Hne];
         [|apply Hrest; [intros _; exact Hne|exact Hf]];
         inversion Hf; subst; exists w; split; [|split; [exact Hb|reflexivity]];
         split; [exact H0|split; [intros l; congruence|]]; intros j u Hj Hu Hr; apply (Hk j); assumption. }
  apply (G vs 0); [intros n v Hv; exact Hv|intros j w Hj; lia|exact H].
Qed.

Section Kept.
  Variable x : ext.
  Variable E : env.
  Hypothesis Hx : shows_back x.
  Hypothesis HD : durable x E.

  Definition Kept (id : nat) (v : value) : Prop :=
    tab_free v -> Survives x E false id v /\ (payload_type E (BUser id) -> Survives x E true id v) /\
                  (attr_type E (BUser id) -> AttrSurvives x E (BUser id) v).

  Notation Q := clean_event.

  (** ** Simple values *)
  Lemma tabs_attr : forall t, legal t = true -> tab_free (VStr t) -> legal_attr t = true.
  Proof. intros t H Ht. unfold legal_attr. rewrite H. apply Ht. constructor. Qed.

  Lemma parse_leaf : forall (ok : string -> Prop) s t v, (forall u, attr_text u -> ok u) -> (s = SString -> ok t) ->
    parse_simple x s t = Ok v -> leaf_survives x ok s v.
  Proof.
    intros ok s t v Hok Ht H. destruct s; cbn [parse_simple] in H.
    - inversion H; subst. apply Ht. reflexivity.
    - destruct (parse_bool t); inversion H; exact I.
    - destruct (parse_int t0 t) eqn:Hp; inversion H; subst. apply C08_lemma in Hp. apply Hp.
    - destruct (x_fparse x is64 t) as [z|] eqn:Hp; inversion H; subst. destruct (proj1 Hx _ _ _ Hp) as [H1 H2].
      split; [apply Hok; exact H1|exact H2].
  Qed.
  Lemma visit_leaf : forall (ok : string -> Prop) s t v, (forall u, attr_text u -> ok u) -> (s = SString -> ok t) ->
    visit_simple x s t = Ok v -> leaf_survives x ok s v.
  Proof.
    intros ok s t v Hok Ht H. unfold visit_simple in H. destruct s; try exact (parse_leaf ok _ _ _ Hok Ht H).
    cbn [parse_simple] in H. destruct (parse_bool (map_if_bool t)); inversion H; exact I.
  Qed.
  Lemma attr_clean : forall u, attr_text u -> clean u.
  Proof. intros u [H _]; exact H. Qed.
  Lemma attr_legal : forall u, attr_text u -> legal_attr u = true.
  Proof. intros u [_ H]; exact H. Qed.

  (** A value read for base type [b]: as content, as an attribute. *)
  Definition item_kept (b : base) (v : value) : Prop := tab_free v -> ItemSurvives x E b v.
  Definition attr_kept (b : base) (v : value) : Prop := tab_free v -> attr_type E b -> AttrSurvives x E b v.
  Definition inside_kept (b : base) (v : value) : Prop := tab_free v -> payload_type E b -> InsideSurvives x E b v.

  Variable rec : nat -> prog value.
  Hypothesis Hrec : forall id, may Q (Kept id) (rec id).
  Variable fuel : nat.

  Lemma from_str_in_kept : forall id s, may Q (Kept id) (from_str_in rec id s).
  Proof.
    intros id s. unfold from_str_in. destruct (fst _) as [v| | |] eqn:H; constructor.
    refine (may_source _ Q (Kept id) _ _ _ I (Hrec id) _ H). apply parse_clean.
  Qed.

  Lemma visit_attr_kept : forall b t, legal t = true -> may Q (attr_kept b) (visit_attr x E rec b t).
  Proof.
    intros [s|id] t Ht; unfold visit_attr.
    - apply may_of_res. intros v Hv Htab _. constructor. apply (visit_leaf _ _ t); [apply attr_legal| |exact Hv].
      intros ->. cbn in Hv. inversion Hv; subst. apply tabs_attr; assumption.
    - destruct (nth_error E id); [|constructor].
      eapply may_imp; [|apply from_str_in_kept]. intros v Hv Htab Ha. apply Hv; assumption.
  Qed.

  (** ** Structs *)
  Section Struct.
    Variable fs : list field.
    Hypothesis Hfs : forall f, In f fs -> durable_field x E f.

    Definition val_kept (f : field) (v : value) : Prop :=
      if ya_attribute (f_attrs f) then attr_kept (fbase (f_ty f)) v else item_kept (fbase (f_ty f)) v.
    Definition slot_kept (f : field) (s : slot) : Prop :=
      match f_ty f, s with
      | TVec _, SMany l => forall v, In v l -> val_kept f v
      | TBase _, SOne o | TOpt _, SOne o => forall v, o = Some v -> val_kept f v
      | _, _ => False
      end.
    Notation ok := (Forall2 slot_kept fs).

    Lemma init_kept : ok (map (fun f => init_slot (f_ty f)) fs).
    Proof.
      induction fs as [|f gs IH]; constructor; [|apply IH; intros; apply Hfs; right; assumption].
      destruct (Hfs f (or_introl eq_refl)) as (_ & _ & _ & Ho & _).
      unfold slot_kept, init_slot. destruct (f_ty f); try discriminate; [intros v []|]. exact (Ho b eq_refl).
    Qed.

    Lemma upd_kept : forall ss i f g, ok ss -> nth_error fs i = Some f ->
      (forall s, slot_kept f s -> slot_kept f (g s)) -> ok (upd i g ss).
    Proof.
      intros ss i f g H; revert i; induction H as [|f0 s gs ss Hs H IH]; intros i Hi Hg; [destruct i; discriminate|].
      destruct i as [|i]; cbn [upd nth_error] in *.
      - inversion Hi; subst. constructor; auto.
      - constructor; auto. apply IH; [intros; apply Hfs; right; assumption| |]; assumption.
    Qed.

    Lemma put_kept : forall i f v ss, nth_error fs i = Some f -> val_kept f v -> ok ss -> ok (upd i (put_slot v) ss).
    Proof.
      intros i f v ss Hi Hv Hs. eapply upd_kept; eauto. intros s. unfold slot_kept, put_slot.
      destruct (f_ty f), s; auto.
      - intros _ w Hw. inversion Hw; subst; exact Hv.
      - intros _ w Hw. inversion Hw; subst; exact Hv.
      - intros H w Hw. apply in_app_or in Hw. destruct Hw as [Hw|[<-|[]]]; auto.
    Qed.

    Lemma attr_not_vec : forall f b, In f fs -> ya_attribute (f_attrs f) = true -> f_ty f <> TVec b.
    Proof. intros f b Hf Ha. destruct (Hfs f Hf) as (_ & _ & _ & _ & _ & H & _). apply (H Ha). Qed.

    Lemma load_attr_kept : forall f i attrs ss, nth_error fs i = Some f -> ya_attribute (f_attrs f) = true ->
      (forall a, In a attrs -> legal (at_value a) = true) -> ok ss -> may Q ok (load_attr x E rec f i attrs ss).
    Proof.
      intros f i attrs; induction attrs as [|a attrs IH]; intros ss Hi Hat Hl Hs; cbn [load_attr]; [my; exact Hs|].
      apply may_bind with (P := fun ss => ok ss); [|intros ss' Hs'; apply IH; auto; intros; apply Hl; right; assumption].
      destruct (String.eqb _ _); [|my; exact Hs].
      assert (Hv : forall v, attr_kept (fbase (f_ty f)) v -> val_kept f v) by (intros v Hv; unfold val_kept; rewrite Hat; exact Hv).
      assert (Hgen : may Q (fun ss => ok ss) (bind (visit_attr x E rec (fbase (f_ty f)) (at_value a)) (fun v => Ret (upd i (put_slot v) ss)))).
      { eapply may_bind; [apply visit_attr_kept; apply Hl; left; reflexivity|]. intros v Hk. my. eapply put_kept; eauto. }
      destruct (f_ty f) as [b|b|b|b] eqn:Hty; cbn [fbase] in Hgen; try exact Hgen.
      - destruct b as [[]|]; exact Hgen.
      - exfalso. eapply attr_not_vec; eauto using nth_error_In.
    Qed.

    Lemma load_attrs_kept : forall gs i attrs ss, (forall j g, nth_error gs j = Some g -> nth_error fs (i + j) = Some g) ->
      (forall a, In a attrs -> legal (at_value a) = true) -> ok ss -> may Q ok (load_attrs x E rec gs i attrs ss).
    Proof.
      intros gs; induction gs as [|g gs IH]; intros i attrs ss Hg Hl Hs; cbn [load_attrs]; [my; exact Hs|].
      apply may_bind with (P := fun ss => ok ss).
      - destruct (ya_attribute (f_attrs g)) eqn:Ha; [|my; exact Hs]. apply load_attr_kept; auto.
        specialize (Hg 0 g eq_refl). rewrite Nat.add_0_r in Hg. exact Hg.
      - intros ss' Hs'. apply IH; auto. intros j g' Hj. rewrite Nat.add_succ_comm. apply Hg. exact Hj.
    Qed.

    Lemma arm_struct_kept : forall i f id dp ss, nth_error fs i = Some f -> ya_attribute (f_attrs f) = false ->
      fbase (f_ty f) = BUser id -> ok ss -> may Q ok (arm_struct rec i id dp ss).
    Proof.
      intros i f id dp ss Hi Ha Hb Hs. unfold arm_struct.
      assert (Hgo : may Q (fun ss => ok ss) (Peek (fun r => match r with
        | Ok (EStart _ _ _) => bind (rec id) (fun v => bind next_ (fun _ => Ret (upd i (put_slot v) ss)))
        | _ => Ret ss end))).
      { my. destruct r as [[]|]; try (my; exact Hs).
        eapply may_bind; [apply Hrec|]. intros v Hv. eapply may_bind; [apply may_any|]. intros _ _. my.
        eapply put_kept; eauto. unfold val_kept. rewrite Ha, Hb. intros Ht. constructor. apply Hv. exact Ht. }
      destruct (Z.eqb dp 0); [my|]; exact Hgo.
    Qed.

    Lemma arm_simple_kept : forall ra i f s n ss, nth_error fs i = Some f -> ya_attribute (f_attrs f) = false ->
      fbase (f_ty f) = BSimple s -> ok ss -> may Q ok (arm_simple x ra i f s n ss).
    Proof.
      intros ra i f s n ss Hi Ha Hb Hs. unfold arm_simple. destruct (namespace_check _ _ _ _); [my|].
      eapply may_bind.
      - apply may_attempt with (P := fun v => leaf_survives x clean s v). unfold read_inner_value. my.
        destruct r as [[]|]; try solve [my].
        eapply may_bind with (P := fun v => leaf_survives x clean s v).
        + my. destruct r as [[]|]; try solve [my]. eapply may_bind; [apply may_any|]. intros _ _.
          apply may_of_res. intros v Hv. eapply visit_leaf; [apply attr_clean| |exact Hv]. intros _. assumption.
        + intros v Hv. eapply may_bind; [apply may_any|]. intros _ _. my. exact Hv.
      - intros [v|m] Hr; my; [|exact Hs]. eapply put_kept; eauto. unfold val_kept. rewrite Ha, Hb. intros _. constructor. exact Hr.
    Qed.

    Lemma set_text_kept : forall t ss, clean t -> ok ss -> ok (set_text t fs ss).
    Proof.
      intros t ss Ht H; induction H as [|f s gs ss Hs H IH]; cbn [set_text]; constructor;
        [|apply IH; intros; apply Hfs; right; assumption].
      unfold set_text1. destruct (ya_text (f_attrs f)) eqn:Htx; [|exact Hs].
      destruct (Hfs f (or_introl eq_refl)) as (_ & _ & _ & _ & _ & Hna & _).
      assert (Ha : ya_attribute (f_attrs f) = false).
      { destruct (ya_attribute (f_attrs f)); [|reflexivity]. destruct (Hna eq_refl) as (_ & _ & K). congruence. }
      assert (Hk : forall b, f_ty f = b -> fbase b = BSimple SString -> val_kept f (VStr t)).
      { intros b Hb Hf. unfold val_kept. rewrite Ha, Hb, Hf. intros _. constructor. exact Ht. }
      destruct (f_ty f) as [[[]|]|[[]|]|b|b] eqn:Hty; try exact Hs; unfold slot_kept; rewrite Hty; intros v Hv.
      - inversion Hv; subst. eapply Hk; reflexivity.
      - destruct (is_empty t); inversion Hv; subst. eapply Hk; reflexivity.
    Qed.

    Lemma struct_loop_kept : forall fl td ln sd st, ok (l_slots st) ->
      may Q (fun st => ok (l_slots st)) (struct_loop x E rec fuel fl td fs ln sd st).
    Proof.
      induction fl as [|fl IH]; intros td ln sd st Hs; cbn [struct_loop]; [my|].
      eapply may_bind; [apply may_peek_|]. intros e He. destruct e as [| | |n attrs nsm|n|t|t|t|t]; try solve [my].
      - destruct (ya_flatten (t_attrs td)); [my; exact Hs|apply IH; exact Hs].
      - apply may_bind with (P := fun st => ok (l_slots st)).
        + destruct (_ && _)%bool.
          * eapply may_bind; [apply may_any|]. intros ev _. eapply may_bind; [apply may_any|]. intros u _. my. exact Hs.
          * destruct (find_field (t_attrs td) fs 0 (opt_default "" (n_ns n)) (n_local n)) as [[i f]|] eqn:Hff.
            -- assert (Hi : nth_error fs i = Some f) by (eapply find_field_nth; [exact Hff|]; intros; assumption).
               assert (Ha : ya_attribute (f_attrs f) = false)
                 by (rewrite find_field_for in Hff; destruct (field_for_spec _ _ _ _ _ Hff) as (_ & Ha & _); exact Ha).
               apply may_bind with (P := fun ss => ok ss); [|intros ss Hss; my; exact Hss].
               destruct (fbase (f_ty f)) eqn:Hb; [eapply arm_simple_kept|eapply arm_struct_kept]; eauto.
            -- eapply may_bind; [apply may_any|]. intros ev _. eapply may_bind; [apply may_any|]. intros u _.
               eapply may_bind; [apply may_any|]. intros u' _. my. exact Hs.
        + intros st1 Hs1. apply may_bind with (P := fun ss => ok ss).
          * destruct (Z.eqb (l_depth st1) 0); [|my; exact Hs1]. apply load_attrs_kept; auto.
          * intros ss Hss. apply IH. exact Hss.
      - my. destruct (_ && _)%bool.
        + eapply may_bind; [apply may_any|]. intros u _. my. exact Hs.
        + eapply may_bind; [apply may_any|]. intros ev _. eapply may_bind; [apply may_any|]. intros u _.
          apply IH. exact Hs.
      - eapply may_bind; [apply may_any|]. intros ev _. eapply may_bind; [apply may_any|]. intros u _.
        apply IH. apply set_text_kept; [exact He|exact Hs].
    Qed.

    Lemma visit_flatten_kept : forall gs i text ss, (forall j g, nth_error gs j = Some g -> nth_error fs (i + j) = Some g) ->
      ok ss -> may Q ok (visit_flatten rec gs i text ss).
    Proof.
      intros gs; induction gs as [|g gs IH]; intros i text ss Hg Hs; cbn [visit_flatten]; [my; exact Hs|].
      apply may_bind with (P := fun ss => ok ss).
      - destruct (negb (ya_attribute (f_attrs g)) && _)%bool eqn:Hb; [|my; exact Hs].
        apply andb_true_iff in Hb. destruct Hb as [Ha _]. apply negb_true_iff in Ha.
        assert (Hi : nth_error fs i = Some g) by (specialize (Hg 0 g eq_refl); rewrite Nat.add_0_r in Hg; exact Hg).
        assert (Hk : forall id v, fbase (f_ty g) = BUser id -> Kept id v -> val_kept g v)
          by (intros id v Hb Hv; unfold val_kept; rewrite Ha, Hb; intros Ht; constructor; apply Hv; exact Ht).
        destruct (f_ty g) as [[|id]|[|id]|b|b] eqn:Hty; try solve [my].
        + eapply may_bind; [apply from_str_in_kept|]. intros v Hv. my. eapply upd_kept; eauto.
          intros s _. unfold slot_kept. rewrite Hty. intros w Hw. inversion Hw; subst. eapply Hk; [reflexivity|eassumption].
        + eapply may_bind; [apply may_attempt; apply from_str_in_kept|]. intros r Hr. my. eapply upd_kept; eauto.
          intros s _. unfold slot_kept. rewrite Hty. intros w Hw. destruct r as [v|m]; inversion Hw; subst. eapply Hk; [reflexivity|eassumption].
      - intros ss' Hs'. apply IH; auto. intros j g' Hj. rewrite Nat.add_succ_comm. apply Hg. exact Hj.
    Qed.

    (** A built field survives, as part of whatever struct. *)
    Definition field_kept (f : field) (v : value) : Prop :=
      tab_free v -> forall self, FieldSurvives x E false self f v /\ (ya_attribute (f_attrs f) = false -> FieldSurvives x E true self f v).

    Lemma unneeded_default : forall self f v, durable_field x E f -> unneeded x self f v -> missing_value x f = Some v.
    Proof.
      intros self f v (_ & Hsi & _ & _ & Hd & _) [(g & Hg & _)|(g & Hg & Hv)]; [congruence|].
      destruct (Hd g Hg) as (_ & (b & Hb) & He). apply He in Hv. unfold missing_value. rewrite Hb, Hg, <- Hv. reflexivity.
    Qed.
    Lemma unneeded_dec : forall self f v, durable_field x E f -> unneeded x self f v \/ ~ unneeded x self f v.
    Proof.
      intros self f v (_ & Hsi & _). destruct (ya_default (f_attrs f)) as [g|] eqn:Hg.
      - destruct (value_eqb x v (x_default x g)) eqn:He; [left; right; exists g; split; [exact Hg|apply equal_values; exact He]|].
        right. intros [(h & Hh & _)|(h & Hh & K)]; [congruence|]. assert (h = g) by congruence. subst. apply equal_values in K. congruence.
      - right. intros [(h & Hh & _)|(h & Hh & K)]; congruence.
    Qed.
    Lemma tab_opt : forall v, tab_free (VOpt (Some v)) -> tab_free v.
    Proof. intros v H t Ht. apply H. constructor. exact Ht. Qed.
    Lemma tab_vec : forall l v, tab_free (VVec l) -> In v l -> tab_free v.
    Proof. intros l v H Hv t Ht. apply H. econstructor; eassumption. Qed.
    Lemma tab_rec : forall l v, tab_free (VRec l) -> In v l -> tab_free v.
    Proof. intros l v H Hv t Ht. apply H. econstructor; eassumption. Qed.
    Lemma tab_var : forall i l v, tab_free (VVar i l) -> In v l -> tab_free v.
    Proof. intros i l v H Hv t Ht. apply H. econstructor; eassumption. Qed.

    Lemma build1_kept : forall tn f s v, durable_field x E f -> slot_kept f s -> build1 x tn f s = Ok v -> field_kept f v.
    Proof.
      intros tn f s v Hf Hs Hb Htab self.
      pose proof Hf as (Hsk & Hsi & Hcd & Ho & Hd & Hat & Htx).
      assert (Hsup : forall w, suppressed x self f w <-> unneeded x self f w)
        by (intros w; split; [intros [K|K]; [congruence|exact K]|right; assumption]).
      assert (Hun : ya_text (f_attrs f) = false -> forall b, unneeded x self f v -> FieldSurvives x E b self f v).
      { intros Ht b Hu. pose proof (unneeded_default _ _ _ Hf Hu) as Hm.
        destruct (ya_attribute (f_attrs f)) eqn:Ha; [apply fv_unneeded_attribute|apply fv_suppressed]; auto. apply Hsup; exact Hu. }
      (** a value that was read *)
      assert (Hone : forall w, (exists b, f_ty f = TBase b /\ v = w \/ f_ty f = TOpt b /\ v = VOpt (Some w)) ->
        val_kept f w -> tab_free w -> FieldSurvives x E false self f v /\ (ya_attribute (f_attrs f) = false -> FieldSurvives x E true self f v)).
      { intros w (b & Hw) Hk Htw. unfold val_kept in Hk.
        assert (Hbase : fbase (f_ty f) = b) by (destruct Hw as [[K _]|[K _]]; rewrite K; reflexivity). rewrite Hbase in Hk.
        assert (Hbo : base_of (f_ty f) = b) by (destruct Hw as [[K _]|[K _]]; rewrite K; reflexivity).
        destruct (ya_attribute (f_attrs f)) eqn:Ha.
        - destruct (Hat eq_refl) as (Hnv & Hty & Htf). rewrite Hbo in Hty. split; [|discriminate].
          destruct (unneeded_dec self f v Hf) as [Hu|Hu]; [apply Hun; auto|].
          eapply fv_attribute; eauto.
        - assert (G : forall b0, FieldSurvives x E b0 self f v).
          { intros b0. destruct (ya_text (f_attrs f)) eqn:Ht.
            - assert (Hbs : b = BSimple SString)
                by (destruct (Htx eq_refl) as [K|K]; destruct Hw as [[K' _]|[K' _]]; congruence). subst b.
              rewrite Hbs in Hk. specialize (Hk Htw). inversion Hk as [s0 w0 Hl|]; subst. destruct w; try contradiction.
              apply (fv_text x E b0 self f v s0 Ha Ht); [|exact Hl]. rewrite Hbs in Hw. exact Hw.
            - destruct (unneeded_dec self f v Hf) as [Hu|Hu]; [apply Hun; auto|].
              apply fv_items with (items := [w]); auto.
              + intros K. apply Hu. apply Hsup. exact K.
              + destruct Hw as [[K K']|[K K']]; rewrite K, K'; reflexivity.
              + intros w' [<-|[]]. rewrite Hbo. apply Hk. exact Htw. }
          split; auto. }
      unfold build1 in Hb. unfold slot_kept in Hs. destruct (f_ty f) as [b|b|b|b] eqn:Hty; destruct s as [o|l]; try contradiction; try discriminate.
      - destruct o as [w|].
        + inversion Hb; subst. apply (Hone v); eauto.
        + destruct (ya_default (f_attrs f)) as [g|] eqn:Hg; [|discriminate]. inversion Hb; subst.
          destruct (Hd g eq_refl) as (Ht & _ & He).
          assert (Hu : unneeded x self f (x_default x g)) by (right; exists g; split; [exact Hg|apply He; reflexivity]).
          split; [|intros _]; apply Hun; auto.
      - inversion Hb; subst. destruct o as [w|].
        + apply (Hone w); eauto using tab_opt.
        + split; [|intros _]; eapply fv_none; eauto.
      - inversion Hb; subst. destruct (ya_attribute (f_attrs f)) eqn:Ha; [exfalso; destruct (Hat eq_refl) as [K _]; exact (K b eq_refl)|].
        assert (Ht : ya_text (f_attrs f) = false)
          by (destruct (ya_text (f_attrs f)); [destruct (Htx eq_refl); discriminate|reflexivity]).
        assert (Hnd : ya_default (f_attrs f) = None).
        { destruct (ya_default (f_attrs f)) as [g|]; [|reflexivity]. destruct (Hd g eq_refl) as (_ & (b' & K) & _). discriminate. }
        assert (G : forall b0, FieldSurvives x E b0 self f (VVec l)).
        { intros b0. apply fv_items with (items := l); auto.
          - intros [K|[(g & K & _)|(g & K & _)]]; congruence.
          - rewrite Hty. reflexivity.
          - intros w Hw. rewrite Hty. cbn [base_of]. specialize (Hs w Hw). unfold val_kept in Hs. rewrite Ha, Hty in Hs. apply Hs.
            eapply tab_vec; eauto. }
        split; auto.
    Qed.

    Lemma build_kept : forall tn gs ss vs, (forall f, In f gs -> durable_field x E f) -> Forall2 slot_kept gs ss ->
      build x tn gs ss = Ok vs -> Forall2 field_kept gs vs.
    Proof.
      intros tn gs ss vs Hgs H; revert vs; induction H as [|f s gs ss Hs H IH]; intros vs Hb; cbn [build] in Hb.
      - inversion Hb; constructor.
      - destruct (build1 x tn f s) as [v|] eqn:H1; [|discriminate].
        destruct (build x tn gs ss) as [ws|] eqn:H2; [|discriminate]. inversion Hb; subst.
        constructor; [eapply build1_kept; eauto; apply Hgs; left; reflexivity|].
        apply IH; [intros; apply Hgs; right; assumption|reflexivity].
    Qed.

    Lemma fields_survive : forall gs vs self b, Forall2 field_kept gs vs -> (forall v, In v vs -> tab_free v) ->
      (b = true -> forall f, In f gs -> ya_attribute (f_attrs f) = false) -> FieldsSurvive x E b self gs vs.
    Proof.
      intros gs vs self b H; induction H as [|f v gs vs Hv H IH]; intros Ht Hb; constructor.
      - destruct (Hv (Ht v (or_introl eq_refl)) self) as [H1 H2]. destruct b; [|exact H1]. apply H2. apply Hb; [reflexivity|left; reflexivity].
      - apply IH; [intros; apply Ht; right; assumption|]. intros Hb1 g Hg. apply Hb; [exact Hb1|right; exact Hg].
    Qed.

    Lemma de_struct_kept : forall id td, nth_error E id = Some td -> t_body td = DStruct fs ->
      may Q (Kept id) (de_struct x E rec fuel td fs).
    Proof.
      intros id td Htd Hb. unfold de_struct. eapply may_bind; [apply may_any|]. intros e _.
      destruct (match e with EStart n _ _ => _ | _ => _ end) as [ln sns]. my.
      destruct (if Nat.eqb r 0 then _ else _); [my|].
      eapply may_bind; [apply struct_loop_kept; apply init_kept|]. intros st Hst. cbn beta in Hst.
      apply may_bind with (P := fun ss => ok ss).
      - unfold visit_unused. destruct (l_unused st); try (my; exact Hst). apply visit_flatten_kept; auto.
      - intros ss Hss. apply may_bind with (P := Forall2 field_kept fs).
        + apply may_of_res. intros vs Hvs. eapply build_kept; eauto.
        + intros vs Hvs. my. intros Ht.
          assert (Hts : forall v, In v vs -> tab_free v) by (intros; eapply tab_rec; eauto).
          split; [|split].
          * eapply sv_struct; [split; eassumption|discriminate|]. apply fields_survive; auto. discriminate.
          * intros Hp. specialize (Hp id td eq_refl Htd). rewrite Hb in Hp. destruct Hp as [Hp1 Hp2].
            eapply sv_struct; [split; eassumption|intros _; exact Hp1|]. apply fields_survive; auto.
          * intros Ha. destruct (Ha id td eq_refl Htd) as [_ K]. rewrite Hb in K. destruct K.
    Qed.
  End Struct.

  (** ** Enums *)
  Section Enum.
    Variable id : nat.
    Variable td : typedef.
    Variable vs : list variant.
    Variable dflt : value.
    Hypothesis Htd : nth_error E id = Some td.
    Hypothesis Hbody : t_body td = DEnum vs dflt.

    Definition payload_kept (t : fty) (w : value) : Prop :=
      match t, w with
      | TBase b, _ => inside_kept b w
      | TOpt b, VOpt (Some u) => inside_kept b u
      | TVec b, VVec l => l <> [] /\ forall u, In u l -> inside_kept b u
      | TOptVec _, _ => True
      | _, _ => False
      end.
    Definition var_kept (v : value) : Prop :=
      exists i vr, first_variant vs i vr /\
        ((v = VVar i [] /\ v_body vr = VbUnit) \/
         exists fl t w, v = VVar i [w] /\ v_body vr = VbNew fl t /\ payload_kept t w).
    Definition cur_kept (o : option value) : Prop := forall v, o = Some v -> var_kept v.

    Lemma set_payload_kept : forall t i v cur vr fl, first_variant vs i vr -> v_body vr = VbNew fl t ->
      inside_kept (fbase t) v -> cur_kept cur -> may Q cur_kept (set_payload t i v cur).
    Proof.
      intros t i v cur vr fl Hf Hb Hv Hc.
      assert (G : forall w, payload_kept t w -> cur_kept (Some (VVar i [w]))).
      { intros w Hw u Hu. inversion Hu; subst. exists i, vr. split; [exact Hf|]. right. exists fl, t, w. auto. }
      unfold set_payload. destruct t as [b|b|b|b]; cbn [fbase] in Hv.
      - my. apply G. exact Hv.
      - my. apply G. exact Hv.
      - destruct cur as [w|].
        + destruct w; try solve [my]. destruct l as [|w [|]]; try solve [my]; [|destruct w; my]. destruct w; try solve [my].
          destruct (Nat.eqb_spec i i0) as [<-|]; [|my]. my. apply G. split; [destruct l; discriminate|].
          assert (Hl : forall u, In u l -> inside_kept b u).
          { destruct (Hc _ eq_refl) as (j & vr' & Hf' & [[K _]|(fl' & t' & w & K & Hb' & Hp)]); inversion K; subst.
            destruct Hf as [Hn _]. destruct Hf' as [Hn' _]. assert (vr' = vr) by congruence. subst.
            rewrite Hb in Hb'. inversion Hb'; subst. apply Hp. }
          intros u Hu. apply in_app_or in Hu. destruct Hu as [Hu|[<-|[]]]; auto.
        + my. apply G. split; [discriminate|]. intros u [<-|[]]. exact Hv.
      - my. apply G. exact I.
    Qed.

    Lemma enum_arm_kept : forall i b cur, (exists vr, first_variant vs i vr /\ v_body vr = b) -> cur_kept cur ->
      may Q (fun r => cur_kept (fst r)) (enum_arm x rec i b cur).
    Proof.
      intros i b cur (vr & Hf & Hb) Hc. unfold enum_arm. destruct b as [|fl t|fs].
      - my. cbn [fst]. intros v Hv. inversion Hv; subst. exists i, vr. auto.
      - destruct (fbase t) as [s|id'] eqn:Hbt.
        + eapply may_bind.
          * apply may_attempt with (P := leaf_survives x (fun t => clean t \/ t = "") s). unfold read_inner_value. my.
            destruct r as [[]|]; try solve [my]. eapply may_bind with (P := leaf_survives x (fun t => clean t \/ t = "") s).
            -- assert (Hvu : forall u, clean u \/ u = "" -> may Q (leaf_survives x (fun t => clean t \/ t = "") s) (visit_unwrap x s u)).
               { intros u Hu. unfold visit_unwrap. destruct (parse_simple x s u) eqn:Hp; my.
                 eapply parse_leaf; [|intros _; exact Hu|exact Hp]. intros u' Hu'. left. apply attr_clean. exact Hu'. }
               eapply may_bind; [apply may_peek_|]. intros e _.
               destruct e; try (apply Hvu; right; reflexivity); my; destruct r as [[]|]; try solve [my]; apply Hvu; left; assumption.
            -- intros v Hv. eapply may_bind; [apply may_any|]. intros _ _. my. exact Hv.
          * intros [v|m] Hr; [|my; exact Hc].
            eapply may_bind; [eapply set_payload_kept; eauto; rewrite Hbt; intros _ _; constructor; exact Hr|]. intros c Hcc. my. exact Hcc.
        + eapply may_bind; [apply Hrec|]. intros v Hv.
          eapply may_bind; [eapply set_payload_kept; eauto; rewrite Hbt; intros Ht Hp; constructor; apply Hv; assumption|].
          intros c Hcc. my. my. exact Hcc.
      - my. exact Hc.
    Qed.

    Lemma found : forall s i b, find_variant vs 0 s = Some (i, b) -> exists vr, first_variant vs i vr /\ v_body vr = b.
    Proof. intros s i b H. rewrite find_variant_for in H. destruct (variant_for_is_first _ _ _ _ H) as (vr & H1 & H2 & _). eauto. Qed.

    Lemma enum_loop_kept : forall fl ln sd cur, cur_kept cur -> may Q cur_kept (enum_loop x rec fl td vs ln sd cur).
    Proof.
      induction fl as [|fl IH]; intros ln sd cur Hc; cbn [enum_loop]; [my|].
      eapply may_bind; [apply may_any|]. intros e _. destruct e as [| | |n attrs nsm|n|t|t|t|t]; try solve [my].
      - destruct (ya_flatten (t_attrs td)); my. exact Hc.
      - eapply may_bind; [apply may_any|]. intros nm _.
        apply may_bind with (P := fun r => cur_kept (fst r)).
        + destruct (find_variant vs 0 nm) as [[i b]|] eqn:Hf.
          * apply enum_arm_kept; auto. eapply found; eauto.
          * my. my. exact Hc.
        + intros [cur1 brk] Hc1. cbn [fst] in Hc1. destruct brk; [my; exact Hc1|].
          eapply may_bind; [apply may_any|]. intros e2 _. destruct e2; auto.
          apply may_bind with (P := fun r => cur_kept (fst r)).
          * destruct (find_variant vs 0 s) as [[i b]|] eqn:Hf.
            -- apply enum_arm_kept; auto. eapply found; eauto.
            -- my. exact Hc1.
          * intros [cur2 brk2] Hc2. destruct brk2; [my; exact Hc2|auto].
      - my. destruct (_ && _)%bool; [my; exact Hc|]. my. auto.
      - my. auto.
    Qed.

    Lemma kept_attr : forall v, attr_type E (BUser id) -> Survives x E false id v -> AttrSurvives x E (BUser id) v.
    Proof.
      intros v Ha Hs. destruct (Ha id td eq_refl Htd) as [Hi H]. rewrite Hbody in H. destruct H as [Htag Hv].
      inversion Hs as [b i td' fs ws Hst|b i td' ws d k vr Htd' Hb Ht' Hf Hu Hbare Hc|i td' ws d tg k vr Htd' Hb Ht'
        |b i td' ws d k vr fl t w Htd' Hb Ht' Hf Hu|b i td' k w Htd' Hb Hp]; subst.
      - destruct Hst as [K1 K2]. congruence.
      - assert (td' = td) by congruence. subst. assert (ws = vs) by congruence. subst.
        destruct (Hv vr (nth_error_In _ _ (proj1 Hf))) as (_ & _ & Htx & _).
        eapply as_unit; eauto. intros w Hw _. apply (Hv w Hw).
      - assert (td' = td) by congruence. subst. congruence.
      - assert (td' = td) by congruence. subst. assert (ws = vs) by congruence. subst.
        destruct (Hv vr (nth_error_In _ _ (proj1 Hf))) as (K & _). congruence.
      - congruence.
    Qed.

    Lemma de_enum_kept : may Q (Kept id) (de_enum x rec fuel td vs dflt).
    Proof.
      pose proof (HD id td Htd) as Hd. rewrite Hbody in Hd. destruct Hd as (Hvs & Hd1 & Hd2).
      unfold de_enum. eapply may_bind; [apply may_any|]. intros e _.
      destruct (match e with EStart n _ _ => _ | _ => _ end) as [ln sns]. my.
      destruct (namespace_check _ _ _ _); [my|].
      eapply may_bind; [apply enum_loop_kept; intros v Hv; discriminate|]. intros [v|] Hv; my.
      2: { intros _. split; [exact Hd1|]. split; [exact Hd2|]. intros Ha. apply kept_attr; assumption. }
      intros Ht.
      assert (G : Survives x E false id v /\ (payload_type E (BUser id) -> Survives x E true id v)).
      { destruct (Hv v eq_refl) as (i & vr & Hf & Hcase).
        pose proof (Hvs vr (nth_error_In _ _ (proj1 Hf))) as Hdv. unfold durable_variant in Hdv.
        destruct Hcase as [[-> Hu]|(fl & t & w & -> & Hu & Hp)]; rewrite Hu in Hdv.
        - destruct (ya_tag (t_attrs td)) as [tg|] eqn:Htag.
          + split; [eapply sv_tagged; eauto|]. intros K. specialize (K id td eq_refl Htd). rewrite Hbody in K. destruct K; congruence.
          + destruct Hdv. split; [|intros _]; eapply sv_unit; eauto.
        - destruct (ya_tag (t_attrs td)) as [tg|] eqn:Htag; [destruct Hdv|]. destruct Hdv as (-> & Hfl & Hov & Hpt).
          assert (Htw : tab_free w) by (eapply tab_var; [exact Ht|left; reflexivity]).
          assert (Hps : PayloadSurvives x E dflt i t w).
          { unfold payload_kept in Hp. destruct t as [b|b|b|b]; cbn [base_of] in Hpt.
            - constructor. apply Hp; assumption.
            - destruct w as [| | | | |[u|]| | |]; try contradiction. constructor. apply Hp; [apply tab_opt; exact Htw|exact Hpt].
            - destruct w; try contradiction. destruct Hp as [Hn Hp]. constructor; [exact Hn|]. intros u Hu'. apply Hp; [exact Hu'| |exact Hpt].
              eapply tab_vec; eauto.
            - exfalso. exact (Hov b eq_refl). }
          split.
          + eapply sv_payload; eauto. discriminate.
          + intros K. specialize (K id td eq_refl Htd). rewrite Hbody in K. destruct K as [K _]. eapply sv_payload; eauto. }
      split; [apply G|]. split; [apply G|]. intros Ha. apply kept_attr; [exact Ha|apply G].
    Qed.
  End Enum.

  Lemma prim_kept : forall (ok : string -> Prop) tn k t v, (forall u, attr_text u -> ok u) -> (forall n m, k <> PHex n m) ->
    (v = VStr t -> ok t \/ t = "") -> parse_prim x tn k t = Ok v -> prim_survives x ok tn k v.
  Proof.
    intros ok tn k t v Hok Hk Ht H. destruct k as [s|n m|]; cbn [parse_prim prim_survives] in *.
    - destruct s; try (left; eapply parse_leaf; [exact Hok|discriminate|exact H]).
      cbn [parse_simple] in H. inversion H; subst. destruct (Ht eq_refl) as [K| ->]; [left; exact K|right; auto].
    - exfalso. exact (Hk n m eq_refl).
    - destruct (x_uparse x tn t) as [z|] eqn:Hp; inversion H; subst. destruct (proj2 Hx _ _ _ Hp) as [H1 H2]. auto.
  Qed.

  Lemma de_body_kept : forall id, may Q (Kept id) (de_body x E rec fuel id).
  Proof.
    intros id. unfold de_body. destruct (nth_error E id) as [td|] eqn:Htd; [|my].
    pose proof (HD id td Htd) as Hd. destruct (t_body td) as [fs|vs d|k] eqn:Hb.
    - apply de_struct_kept; auto.
    - eapply de_enum_kept; eauto.
    - unfold de_prim. my. destruct r as [[]|]; try solve [my]. eapply may_bind; [apply may_any|]. intros _ _. my.
      apply may_of_res. intros v Hv Ht.
      set (t := match r with Ok (EChars t) => t | _ => "" end) in *.
      assert (Hc : clean t \/ t = "") by (subst t; destruct r as [[]|]; auto).
      assert (H1 : prim_survives x clean (t_name td) k v) by (eapply prim_kept; eauto using attr_clean).
      split; [|split].
      + eapply sv_prim; eauto.
      + intros _. eapply sv_prim; eauto.
      + intros Ha. destruct (Ha id td eq_refl Htd) as [Hi _]. eapply as_prim; eauto.
        apply (prim_kept attr_text (t_name td) k t v); auto. intros ->. destruct Hc as [Hc| ->]; [left|right; reflexivity].
        split; [exact Hc|]. apply tabs_attr; [apply Hc|exact Ht].
  Qed.
End Kept.

Lemma de_kept : forall x E, shows_back x -> durable x E -> forall fuel id, may clean_event (Kept x E id) (de x E fuel id).
Proof.
  intros x E Hx HD fuel. induction fuel as [|fuel IH]; intros id; cbn [de]; [constructor|]. apply de_body_kept; assumption.
Qed.

Lemma read_survives : forall x E fuel id s v, shows_back x -> durable x E -> tab_free v ->
  from_str x E fuel id s = OOk v -> Survives x E false id v.
Proof.
  intros x E fuel id s v Hx HD Ht H.
  assert (K : Kept x E id v)
    by (refine (may_source _ clean_event (Kept x E id) _ _ _ I (de_kept x E Hx HD fuel id) _ H); apply parse_clean).
  apply (K Ht).
Qed.
