(** * C20: whatever the input, returned values are well typed. *)
From Verif Require Import Str Num Xml XmlText Reader Schema De RunFacts SpecNum NumProofs SpecTyped.
Open Scope list_scope.

(** Every value a program can return satisfies [P]. *)
Inductive leaves {A} (P : A -> Prop) : prog A -> Prop :=
| lv_ret : forall a, P a -> leaves P (Ret a)
| lv_throw : forall m, leaves P (Throw m)
| lv_crash : forall m, leaves P (Crash m)
| lv_stuck : leaves P Stuck
| lv_peek : forall k, (forall r, leaves P (k r)) -> leaves P (Peek k)
| lv_next : forall k, (forall r, leaves P (k r)) -> leaves P (Next k)
| lv_depth : forall k, (forall r, leaves P (k r)) -> leaves P (Depth k).

Lemma leaves_bind : forall A B (P : A -> Prop) (Q : B -> Prop) p (f : A -> prog B),
  leaves P p -> (forall a, P a -> leaves Q (f a)) -> leaves Q (bind p f).
Proof. intros A B P Q p f H Hf; induction H; cbn [bind]; auto; constructor; auto. Qed.

Lemma leaves_attempt : forall A (P : A -> Prop) p, leaves P p ->
  leaves (fun r => match r with Ok a => P a | Er _ => True end) (attempt p).
Proof. intros A P p H; induction H; cbn [attempt]; constructor; auto; exact I. Qed.

Lemma leaves_any : forall A (p : prog A), leaves (fun _ => True) p.
Proof. induction p; constructor; auto. Qed.

Lemma leaves_imp : forall A (P Q : A -> Prop) p, (forall a, P a -> Q a) -> leaves P p -> leaves Q p.
Proof. intros A P Q p H L; induction L; constructor; auto. Qed.

Lemma leaves_run : forall A (P : A -> Prop) p, leaves P p -> forall st a,
  fst (run p st) = OOk a -> P a.
Proof.
  intros A P p H; induction H; intros st b Hr; cbn [run] in Hr; try discriminate.
  - inversion Hr; subst; assumption.
  - destruct (peek st) as [r st']. eauto.
  - destruct (next_event st) as [[r|] st']; [eauto|discriminate].
  - eauto.
Qed.

Lemma leaves_of_res : forall A (P : A -> Prop) (r : res A), (forall a, r = Ok a -> P a) -> leaves P (of_res r).
Proof. intros A P [a|m] H; constructor. auto. Qed.

Ltac lv := first [apply lv_throw | apply lv_crash | apply lv_stuck | apply lv_ret | apply lv_peek; intro | apply lv_next; intro | apply lv_depth; intro].

(** ** Simple texts *)
Lemma parse_simple_typed : forall x s t v, parse_simple x s t = Ok v -> has_simple s v.
Proof.
  intros x s t v H. destruct s; cbn [parse_simple] in H.
  - inversion H; constructor.
  - destruct (parse_bool t); inversion H; constructor.
  - destruct (parse_int t0 t) eqn:Hp; inversion H; subst. apply C08_lemma in Hp. constructor. apply Hp.
  - destruct (x_fparse x is64 t); inversion H; constructor.
Qed.

Lemma visit_simple_typed : forall x s t v, visit_simple x s t = Ok v -> has_simple s v.
Proof. intros x s t v H; eapply parse_simple_typed; exact H. Qed.

Lemma parse_prim_typed : forall x E id td k t v, nth_error E id = Some td -> t_body td = DPrim k ->
  parse_prim x (t_name td) k t = Ok v -> Typed E id v.
Proof.
  intros x E id td k t v Htd Hb H. destruct k as [s|i mask|]; cbn [parse_prim] in H.
  - eapply ty_inner; eauto using parse_simple_typed.
  - destruct (parse_int i t) as [z|] eqn:Hp; [|discriminate].
    destruct (Z.eqb (Z.land z mask) z) eqn:Hm; [|discriminate]. inversion H; subst.
    apply C08_lemma in Hp. apply Z.eqb_eq in Hm. eapply ty_hex; eauto. apply Hp.
  - destruct (x_uparse x (t_name td) t); inversion H; subst. eapply ty_user; eauto.
Qed.

(** ** Slots *)
Inductive slot_typed (E : env) : fty -> slot -> Prop :=
| st_none : forall t, (forall b, t <> TVec b) -> slot_typed E t (SOne None)
| st_base : forall b v, BTyped E b v -> slot_typed E (TBase b) (SOne (Some v))
| st_opt : forall b v, BTyped E b v -> slot_typed E (TOpt b) (SOne (Some v))
| st_vec : forall b l, (forall v, In v l -> BTyped E b v) -> slot_typed E (TVec b) (SMany l).

Definition slots_typed (E : env) (fs : list field) (ss : list slot) : Prop :=
  Forall2 (fun f s => slot_typed E (f_ty f) s) fs ss.

Lemma init_typed : forall E fs, slots_typed E fs (map (fun f => init_slot (f_ty f)) fs).
Proof.
  intros E fs; induction fs as [|f fs IH]; constructor; [|exact IH].
  unfold init_slot. destruct (f_ty f); constructor; try discriminate. intros v [].
Qed.

Lemma upd_typed : forall E fs ss i f g, slots_typed E fs ss -> nth_error fs i = Some f ->
  (forall s, slot_typed E (f_ty f) s -> slot_typed E (f_ty f) (g s)) ->
  slots_typed E fs (upd i g ss).
Proof.
  intros E fs ss i f g H; revert i; induction H as [|f0 s fs ss Hs H IH]; intros i Hi Hg; [destruct i; discriminate|].
  destruct i as [|i]; cbn [upd nth_error] in *.
  - inversion Hi; subst. constructor; auto.
  - constructor; auto. apply IH; assumption.
Qed.

Lemma put_typed : forall E t v s, (forall b, t <> TOptVec b) -> BTyped E (fbase t) v ->
  slot_typed E t s -> slot_typed E t (put_slot v s).
Proof.
  intros E t v s Ho Hv Hs; inversion Hs; subst; cbn [put_slot fbase] in *.
  - destruct t; cbn [fbase] in *; try (constructor; assumption).
    + exfalso. eapply H; reflexivity.
    + exfalso. eapply Ho; reflexivity.
  - constructor; assumption.
  - constructor; assumption.
  - constructor. intros w Hw. apply in_app_or in Hw. destruct Hw as [Hw|[<-|[]]]; auto.
Qed.

Lemma set_text_typed : forall E t fs ss, slots_typed E fs ss -> slots_typed E fs (set_text t fs ss).
Proof.
  intros E t fs ss H; induction H as [|f s fs ss Hs H IH]; cbn [set_text]; constructor; [|exact IH].
  unfold set_text1. destruct (ya_text (f_attrs f)); [|exact Hs].
  destruct (f_ty f) as [[[]|]|[[]|]|b|b] eqn:Hty; try exact Hs.
  - constructor. constructor. constructor.
  - destruct (is_empty t); constructor; try discriminate. constructor. constructor.
Qed.

Lemma build_typed : forall x E tn fs ss vs,
  (forall f, In f fs -> (forall b, f_ty f <> TOptVec b) /\
     (forall g b, ya_default (f_attrs f) = Some g -> f_ty f = TBase b -> BTyped E b (x_default x g))) ->
  slots_typed E fs ss -> build x tn fs ss = Ok vs -> FieldsTyped E fs vs.
Proof.
  intros x E tn fs ss vs Hu H; revert vs; induction H as [|f s fs ss Hs H IH]; intros vs Hb; cbn [build] in Hb.
  - inversion Hb; constructor.
  - destruct (build1 x tn f s) as [v|] eqn:H1; [|discriminate].
    destruct (build x tn fs ss) as [ws|] eqn:H2; [|discriminate]. inversion Hb; subst.
    constructor; [|apply IH; auto; intros; apply Hu; right; assumption].
    destruct (Hu f (or_introl eq_refl)) as [Ho Hd]. unfold build1 in H1.
    inversion Hs as [t Hnv Heq Hs1|b w Hw Heq Hs1|b w Hw Heq Hs1|b l Hw Heq Hs1]; subst;
      try rewrite <- Heq in *; try (inversion H1; subst; constructor; assumption).
    destruct (f_ty f) eqn:Hty.
    + destruct (ya_default (f_attrs f)) as [g|] eqn:Hg; [|discriminate]. inversion H1; subst.
      constructor. eapply Hd; eauto.
    + inversion H1; constructor.
    + exfalso; eapply Hnv; reflexivity.
    + exfalso; eapply Ho; reflexivity.
Qed.

Section De.
  Variable x : ext.
  Variable E : env.
  Hypothesis Huser : user_code_typed E x.
  Variable rec : nat -> prog value.
  Hypothesis Hrec : forall id, leaves (Typed E id) (rec id).
  Variable fuel : nat.

  Lemma from_str_in_typed : forall id s, leaves (Typed E id) (from_str_in rec id s).
  Proof.
    intros id s. unfold from_str_in. destruct (fst _) as [v| | |] eqn:H; constructor.
    eapply leaves_run; [apply Hrec|exact H].
  Qed.

  Lemma visit_attr_typed : forall b t, leaves (BTyped E b) (visit_attr x E rec b t).
  Proof.
    intros [s|id] t; unfold visit_attr.
    - apply leaves_of_res. intros v Hv. constructor. eapply visit_simple_typed; eauto.
    - destruct (nth_error E id); [|constructor].
      eapply leaves_imp; [|apply from_str_in_typed]. intros v Hv; constructor; assumption.
  Qed.

  Section Struct.
    Variable fs : list field.
    Hypothesis Hfs : forall f, In f fs -> (forall b, f_ty f <> TOptVec b) /\
     (forall g b, ya_default (f_attrs f) = Some g -> f_ty f = TBase b -> BTyped E b (x_default x g)).
    Notation ok := (slots_typed E fs).

    Lemma put_ok : forall i f v ss, nth_error fs i = Some f -> BTyped E (fbase (f_ty f)) v -> ok ss ->
      ok (upd i (put_slot v) ss).
    Proof.
      intros i f v ss Hi Hv Hs. eapply upd_typed; eauto. intros s. apply put_typed; auto.
      apply (Hfs f). eapply nth_error_In; eauto.
    Qed.

    Lemma visit_attr_items_typed : forall b i f items ss, nth_error fs i = Some f -> fbase (f_ty f) = b ->
      ok ss -> leaves ok (visit_attr_items x E rec b i items ss).
    Proof.
      intros b i f items; induction items as [|t items IH]; intros ss Hi Hb Hs; cbn [visit_attr_items]; [lv; exact Hs|].
      eapply leaves_bind; [apply visit_attr_typed|]. intros v Hv. apply IH; auto.
      eapply put_ok; eauto. rewrite Hb. exact Hv.
    Qed.

    Lemma load_attr_typed : forall f i attrs ss, nth_error fs i = Some f -> ok ss ->
      leaves ok (load_attr x E rec f i attrs ss).
    Proof.
      intros f i attrs; induction attrs as [|a attrs IH]; intros ss Hi Hs; cbn [load_attr]; [lv; exact Hs|].
      apply leaves_bind with (P := ok); [|auto].
      destruct (String.eqb _ _); [|lv; exact Hs].
      assert (Hgen : leaves ok (bind (visit_attr x E rec (fbase (f_ty f)) (at_value a)) (fun v => Ret (upd i (put_slot v) ss)))).
      { eapply leaves_bind; [apply visit_attr_typed|]. intros v Hv. lv. eapply put_ok; eauto. }
      destruct (f_ty f) as [b|b|b|b] eqn:Hty; cbn [fbase] in Hgen; try exact Hgen.
      - destruct b as [[]|]; exact Hgen.
      - apply visit_attr_items_typed with (f := f); auto. rewrite Hty. reflexivity.
    Qed.

    Lemma load_attrs_typed : forall gs i attrs ss, (forall j g, nth_error gs j = Some g -> nth_error fs (i + j) = Some g) ->
      ok ss -> leaves ok (load_attrs x E rec gs i attrs ss).
    Proof.
      intros gs; induction gs as [|g gs IH]; intros i attrs ss Hg Hs; cbn [load_attrs]; [lv; exact Hs|].
      apply leaves_bind with (P := ok).
      - destruct (ya_attribute (f_attrs g)); [|lv; exact Hs]. apply load_attr_typed; auto.
        specialize (Hg 0 g eq_refl). rewrite Nat.add_0_r in Hg. exact Hg.
      - intros ss' Hs'. apply IH; auto. intros j g' Hj. rewrite Nat.add_succ_comm. apply Hg. exact Hj.
    Qed.

    Lemma find_field_nth : forall ra gs i ns l j f, find_field ra gs i ns l = Some (j, f) ->
      (forall k g, nth_error gs k = Some g -> nth_error fs (i + k) = Some g) -> nth_error fs j = Some f.
    Proof.
      intros ra gs; induction gs as [|g gs IH]; intros i ns l j f H Hg; cbn [find_field] in H; [discriminate|].
      destruct (_ && _)%bool.
      - inversion H; subst. specialize (Hg 0 f eq_refl). rewrite Nat.add_0_r in Hg. exact Hg.
      - eapply IH; eauto. intros k g' Hk. rewrite Nat.add_succ_comm. apply Hg. exact Hk.
    Qed.

    Lemma arm_struct_typed : forall i f id dp ss, nth_error fs i = Some f -> fbase (f_ty f) = BUser id -> ok ss ->
      leaves ok (arm_struct rec i id dp ss).
    Proof.
      intros i f id dp ss Hi Hb Hs. unfold arm_struct.
      assert (Hgo : leaves ok (Peek (fun r => match r with
        | Ok (EStart _ _ _) => bind (rec id) (fun v => bind next_ (fun _ => Ret (upd i (put_slot v) ss)))
        | _ => Ret ss end))).
      { lv. destruct r as [[]|]; try (lv; exact Hs).
        eapply leaves_bind; [apply Hrec|]. intros v Hv. eapply leaves_bind; [apply leaves_any|]. intros _ _. lv.
        eapply put_ok; eauto. rewrite Hb. constructor. exact Hv. }
      destruct (Z.eqb dp 0); [lv|]; exact Hgo.
    Qed.

    Lemma arm_simple_typed : forall ra i f s n ss, nth_error fs i = Some f -> fbase (f_ty f) = BSimple s -> ok ss ->
      leaves ok (arm_simple x ra i f s n ss).
    Proof.
      intros ra i f s n ss Hi Hb Hs. unfold arm_simple. destruct (namespace_check _ _ _ _); [lv|].
      eapply leaves_bind.
      - apply leaves_attempt with (P := has_simple s). unfold read_inner_value. lv.
        destruct r as [[]|]; try solve [lv].
        eapply leaves_bind with (P := has_simple s).
        + lv. destruct r as [[]|]; try solve [lv]. eapply leaves_bind; [apply leaves_any|]. intros _ _.
          apply leaves_of_res. intros v Hv. eapply visit_simple_typed; eauto.
        + intros v Hv. eapply leaves_bind; [apply leaves_any|]. intros _ _. lv. exact Hv.
      - intros [v|m] Hr; lv; [|exact Hs]. eapply put_ok; eauto. rewrite Hb. constructor. exact Hr.
    Qed.

    Lemma struct_loop_typed : forall fl td ln sd st, ok (l_slots st) ->
      leaves (fun st => ok (l_slots st)) (struct_loop x E rec fuel fl td fs ln sd st).
    Proof.
      induction fl as [|fl IH]; intros td ln sd st Hs; cbn [struct_loop]; [lv|].
      eapply leaves_bind; [apply leaves_any|]. intros e _. destruct e as [| | |n attrs nsm|n|t|t|t|t]; try solve [lv].
      - destruct (ya_flatten (t_attrs td)); [lv; exact Hs|apply IH; exact Hs].
      - apply leaves_bind with (P := fun st => ok (l_slots st)).
        + destruct (_ && _)%bool.
          * eapply leaves_bind; [apply leaves_any|]. intros ev _. eapply leaves_bind; [apply leaves_any|]. intros u _. lv. exact Hs.
          * destruct (find_field (t_attrs td) fs 0 (opt_default "" (n_ns n)) (n_local n)) as [[i f]|] eqn:Hff.
            -- assert (Hi : nth_error fs i = Some f) by (eapply find_field_nth; [exact Hff|]; intros; assumption).
               apply leaves_bind with (P := ok); [|intros ss Hss; lv; exact Hss].
               destruct (fbase (f_ty f)) eqn:Hb; [eapply arm_simple_typed|eapply arm_struct_typed]; eauto.
            -- eapply leaves_bind; [apply leaves_any|]. intros ev _. eapply leaves_bind; [apply leaves_any|]. intros u _.
               eapply leaves_bind; [apply leaves_any|]. intros u' _. lv. exact Hs.
        + intros st1 Hs1. apply leaves_bind with (P := ok).
          * destruct (Z.eqb (l_depth st1) 0); [|lv; exact Hs1]. apply load_attrs_typed; auto.
          * intros ss Hss. apply IH. exact Hss.
      - lv. destruct (_ && _)%bool.
        + eapply leaves_bind; [apply leaves_any|]. intros u _. lv. exact Hs.
        + eapply leaves_bind; [apply leaves_any|]. intros ev _. eapply leaves_bind; [apply leaves_any|]. intros u _.
          apply IH. exact Hs.
      - eapply leaves_bind; [apply leaves_any|]. intros ev _. eapply leaves_bind; [apply leaves_any|]. intros u _.
        apply IH. apply set_text_typed. exact Hs.
    Qed.

    Lemma visit_flatten_typed : forall gs i text ss, (forall j g, nth_error gs j = Some g -> nth_error fs (i + j) = Some g) ->
      ok ss -> leaves ok (visit_flatten rec gs i text ss).
    Proof.
      intros gs; induction gs as [|g gs IH]; intros i text ss Hg Hs; cbn [visit_flatten]; [lv; exact Hs|].
      apply leaves_bind with (P := ok).
      - destruct (_ && _)%bool; [|lv; exact Hs].
        assert (Hi : nth_error fs i = Some g) by (specialize (Hg 0 g eq_refl); rewrite Nat.add_0_r in Hg; exact Hg).
        destruct (f_ty g) as [[|id]|[|id]|b|b] eqn:Hty; try solve [lv].
        + eapply leaves_bind; [apply from_str_in_typed|]. intros v Hv. lv. eapply upd_typed; eauto.
          intros s _. rewrite Hty. constructor. constructor. exact Hv.
        + eapply leaves_bind; [apply leaves_attempt; apply from_str_in_typed|]. intros r Hr. lv. eapply upd_typed; eauto.
          intros s _. rewrite Hty. destruct r as [v|m]; constructor; try discriminate. constructor. exact Hr.
      - intros ss' Hs'. apply IH; auto. intros j g' Hj. rewrite Nat.add_succ_comm. apply Hg. exact Hj.
    Qed.

    Lemma de_struct_typed : forall id td, nth_error E id = Some td -> t_body td = DStruct fs ->
      leaves (Typed E id) (de_struct x E rec fuel td fs).
    Proof.
      intros id td Htd Hb. unfold de_struct. eapply leaves_bind; [apply leaves_any|]. intros e _.
      destruct (match e with EStart n _ _ => _ | _ => _ end) as [ln sns]. lv.
      destruct (if Nat.eqb r 0 then _ else _); [lv|].
      eapply leaves_bind; [apply struct_loop_typed; apply init_typed|]. intros st Hst. cbn beta in Hst.
      apply leaves_bind with (P := ok).
      - unfold visit_unused. destruct (l_unused st); try (lv; exact Hst). apply visit_flatten_typed; auto.
      - intros ss Hss. apply leaves_bind with (P := FieldsTyped E fs).
        + apply leaves_of_res. intros vs Hvs. eapply build_typed; eauto.
        + intros vs Hvs. lv. eapply ty_struct; eauto.
    Qed.
  End Struct.

  Section Enum.
    Variable id : nat.
    Variable td : typedef.
    Variable vs : list variant.
    Variable dflt : value.
    Hypothesis Htd : nth_error E id = Some td.
    Hypothesis Hbody : t_body td = DEnum vs dflt.

    Definition cur_ok (o : option value) : Prop := match o with Some v => Typed E id v | None => True end.

    Lemma find_variant_nth : forall ws i nm j b, find_variant ws i nm = Some (j, b) ->
      (forall k v, nth_error ws k = Some v -> nth_error vs (i + k) = Some v) ->
      exists v, nth_error vs j = Some v /\ v_body v = b.
    Proof.
      induction ws as [|v ws IH]; intros i nm j b H Hw; cbn [find_variant] in H; [discriminate|].
      assert (Hrest : find_variant ws (S i) nm = Some (j, b) -> exists v, nth_error vs j = Some v /\ v_body v = b).
      { intros H'. eapply IH; eauto. intros k v' Hk. rewrite Nat.add_succ_comm. apply Hw. exact Hk. }
      specialize (Hw 0 v eq_refl). rewrite Nat.add_0_r in Hw.
      destruct (v_body v) eqn:Hb; auto; destruct (String.eqb _ _); auto; inversion H; subst; eauto.
    Qed.

    Lemma set_payload_typed : forall t i v cur l a fl, nth_error vs i = Some (Variant l a (VbNew fl t)) ->
      BTyped E (fbase t) v -> cur_ok cur -> leaves cur_ok (set_payload t i v cur).
    Proof.
      intros t i v cur l a fl Hi Hv Hc.
      assert (Hno : forall b, t <> TOptVec b).
      { intros b ->. pose proof (Huser id td Htd) as Hu. rewrite Hbody in Hu. destruct Hu as [_ Hu].
        eapply Hu. eapply nth_error_In. exact Hi. }
      unfold set_payload. destruct t as [b|b|b|b]; cbn [fbase] in Hv.
      - lv. eapply ty_new; eauto. constructor; exact Hv.
      - lv. eapply ty_new; eauto. constructor; exact Hv.
      - destruct cur as [w|].
        + destruct w; try solve [lv]. destruct l0 as [|w [|]]; try solve [lv]; [|destruct w; lv]. destruct w; try solve [lv].
          destruct (Nat.eqb i i0) eqn:He; [|lv]. apply Nat.eqb_eq in He. subst i0. lv.
          eapply ty_new; eauto. constructor.
          cbn [cur_ok] in Hc.
          assert (Hl : forall w, In w l0 -> BTyped E b w).
          { inversion Hc; subst; try congruence;
              match goal with H1 : nth_error E id = Some ?t |- _ => assert (t = td) by congruence; subst end;
              match goal with H1 : t_body td = DEnum ?u _ |- _ => assert (u = vs) by congruence; subst | _ => idtac end;
              try congruence.
            - match goal with H1 : nth_error vs i = Some ?u |- _ => rewrite Hi in H1; inversion H1; subst end.
              match goal with H1 : FTyped _ _ _ |- _ => inversion H1; subst end. assumption. }
          intros w Hw. apply in_app_or in Hw. destruct Hw as [Hw|[<-|[]]]; auto.
        + lv. eapply ty_new; eauto. constructor. intros w [<-|[]]. exact Hv.
      - exfalso; eapply Hno; reflexivity.
    Qed.

    Lemma enum_arm_typed : forall i b cur, (exists v, nth_error vs i = Some v /\ v_body v = b) -> cur_ok cur ->
      leaves (fun r => cur_ok (fst r)) (enum_arm x rec i b cur).
    Proof.
      intros i b cur ([l a b'] & Hi & Hb) Hc. cbn in Hb. subst b'. unfold enum_arm. destruct b as [|fl t|fs].
      - lv. cbn. eapply ty_unit; eauto.
      - destruct (fbase t) as [s|id'] eqn:Hb.
        + eapply leaves_bind.
          * apply leaves_attempt with (P := has_simple s). unfold read_inner_value. lv.
            destruct r as [[]|]; try solve [lv]. eapply leaves_bind with (P := has_simple s).
            -- assert (Hvu : forall t, leaves (has_simple s) (visit_unwrap x s t)).
               { intros t0. unfold visit_unwrap. destruct (parse_simple x s t0) eqn:Hp; lv. eapply parse_simple_typed; eauto. }
               eapply leaves_bind; [apply leaves_any|]. intros e _. destruct e; try apply Hvu; lv; destruct r as [[]|]; try solve [lv]; apply Hvu.
            -- intros v Hv. eapply leaves_bind; [apply leaves_any|]. intros _ _. lv. exact Hv.
          * intros [v|m] Hr; [|lv; exact Hc].
            eapply leaves_bind; [eapply set_payload_typed; eauto; rewrite Hb; constructor; exact Hr|]. intros c Hcc. lv. exact Hcc.
        + eapply leaves_bind; [apply Hrec|]. intros v Hv.
          eapply leaves_bind; [eapply set_payload_typed; eauto; rewrite Hb; constructor; exact Hv|]. intros c Hcc. lv. lv. exact Hcc.
      - lv. exact Hc.
    Qed.

    Lemma enum_loop_typed : forall fl ln sd cur, cur_ok cur ->
      leaves cur_ok (enum_loop x rec fl td vs ln sd cur).
    Proof.
      induction fl as [|fl IH]; intros ln sd cur Hc; cbn [enum_loop]; [lv|].
      eapply leaves_bind; [apply leaves_any|]. intros e _. destruct e as [| | |n attrs nsm|n|t|t|t|t]; try solve [lv].
      - destruct (ya_flatten (t_attrs td)); lv. exact Hc.
      - eapply leaves_bind; [apply leaves_any|]. intros nm _.
        apply leaves_bind with (P := fun r => cur_ok (fst r)).
        + destruct (find_variant vs 0 nm) as [[i b]|] eqn:Hf.
          * apply enum_arm_typed; auto. eapply find_variant_nth; eauto.
          * lv. lv. exact Hc.
        + intros [cur1 brk] Hc1. cbn [fst] in Hc1. destruct brk; [lv; exact Hc1|].
          eapply leaves_bind; [apply leaves_any|]. intros e2 _. destruct e2; auto.
          apply leaves_bind with (P := fun r => cur_ok (fst r)).
          * destruct (find_variant vs 0 s) as [[i b]|] eqn:Hf.
            -- apply enum_arm_typed; auto. eapply find_variant_nth; eauto.
            -- lv. exact Hc1.
          * intros [cur2 brk2] Hc2. destruct brk2; [lv; exact Hc2|auto].
      - lv. destruct (_ && _)%bool; [lv; exact Hc|]. lv. auto.
      - lv. auto.
    Qed.

    Lemma de_enum_typed : leaves (Typed E id) (de_enum x rec fuel td vs dflt).
    Proof.
      unfold de_enum. eapply leaves_bind; [apply leaves_any|]. intros e _.
      destruct (match e with EStart n _ _ => _ | _ => _ end) as [ln sns]. lv.
      destruct (namespace_check _ _ _ _); [lv|].
      eapply leaves_bind; [apply enum_loop_typed; exact I|]. intros [v|] Hv; lv; [exact Hv|].
      pose proof (Huser id td Htd) as Hu. rewrite Hbody in Hu. apply Hu.
    Qed.
  End Enum.

  Lemma de_body_typed : forall id, leaves (Typed E id) (de_body x E rec fuel id).
  Proof.
    intros id. unfold de_body. destruct (nth_error E id) as [td|] eqn:Htd; [|lv].
    pose proof (Huser id td Htd) as Hu. destruct (t_body td) as [fs|vs d|k] eqn:Hb.
    - apply de_struct_typed; auto.
    - apply de_enum_typed; auto.
    - unfold de_prim. lv. destruct r as [[]|]; try solve [lv]. eapply leaves_bind; [apply leaves_any|]. intros _ _. lv.
      apply leaves_of_res. intros v Hv. eapply parse_prim_typed; eauto.
  Qed.
End De.

Theorem de_typed : forall x E, user_code_typed E x -> forall fuel id, leaves (Typed E id) (de x E fuel id).
Proof.
  intros x E Hu; induction fuel as [|fuel IH]; intros id; cbn [de]; [lv|]. apply de_body_typed; assumption.
Qed.

Lemma C20_lemma : forall x E, user_code_typed E x -> forall fuel id st v,
  fst (run (de x E fuel id) st) = OOk v -> Typed E id v.
Proof. intros x E Hu fuel id st v H. eapply leaves_run; [apply de_typed; exact Hu|exact H]. Qed.
