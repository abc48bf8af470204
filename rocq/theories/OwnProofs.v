(** * Hand-written implementations: proofs (C70). *)
From Verif Require Import Str Num Xml XmlText Reader Schema De Ser RunFacts SpecTree TreeFacts TreeProofs SpecText SpecValue ValueProofs SpecOwn.
Open Scope list_scope.

(** ** Views *)
Lemma delivered_visible : forall l, filter delivered l = vis l.
Proof. intros l. unfold vis. apply filter_ext. intros []; reflexivity. Qed.

Lemma stands_view : forall st d l f, stands st d l f <-> view st = VState d l f.
Proof.
  intros [dd [evs fn] pk] d l f. unfold stands, view; simpl. rewrite delivered_visible. split.
  - intros (-> & -> & <-). reflexivity.
  - intros H. inversion H; subst. auto.
Qed.

Lemma vis_app : forall a b, vis (a ++ b) = vis a ++ vis b.
Proof. intros. apply filter_app. Qed.

Lemma vis_flat : forall t, vis (flat t) = flat t.
Proof.
  induction t using node_ind'; [reflexivity|]. cbn [flat].
  change (vis (EStart n a m :: flat_map flat ks ++ [EEnd n])) with (EStart n a m :: vis (flat_map flat ks ++ [EEnd n])).
  rewrite vis_app. f_equal. f_equal.
  induction ks as [|k ks IH]; [reflexivity|]. cbn [flat_map]. rewrite vis_app, (H k (or_introl eq_refl)), IH; [reflexivity|].
  intros; apply H; right; assumption.
Qed.

Lemma vis_kids : forall ks, vis (flat_map flat ks) = flat_map flat ks.
Proof.
  induction ks as [|k ks IH]; [reflexivity|]. cbn [flat_map]. rewrite vis_app, vis_flat, IH. reflexivity.
Qed.

Lemma vis_idem : forall l, vis (vis l) = vis l.
Proof.
  induction l as [|e l IH]; [reflexivity|]. unfold vis. cbn [filter]. destruct (visible e) eqn:He.
  - cbn [filter]. rewrite He. f_equal. exact IH.
  - exact IH.
Qed.

Lemma visible_not_enddoc : visible EEndDoc = true. Proof. reflexivity. Qed.

Lemma view_vis : forall st d l f, view st = VState d l f ->
  (forall e, d_peeked st = Some e -> visible e = true) -> vis l = l.
Proof.
  intros [dd [evs fn] pk] d l f H Hp. unfold view in H; simpl in *. inversion H; subst; clear H.
  destruct pk as [e|]; rewrite vis_app, vis_idem; [|reflexivity].
  f_equal. unfold vis; simpl. rewrite (Hp e eq_refl). reflexivity.
Qed.

(** The contract on views. *)
Definition vreads (whole : bool) (d : nat) (p : prog value) (n : name) (a : list attr) (m : nsmap) (ks : list node) (o : outcome value) : Prop :=
  forall tail f, vis tail = tail ->
  match o with
  | OOk v => exists d' l, stops d n a m whole d' l /\
      vrun p (VState d (flat (Elem n a m ks) ++ tail) f) = (OOk v, VState d' (l ++ tail) f)
  | r => fst (vrun p (VState d (flat (Elem n a m ks) ++ tail) f)) = r
  end.

Lemma veq_stops : forall whole d n a m d' l tail f w, stops d n a m whole d' l ->
  veq (VState d' (l ++ tail) f) w \/ veq w (VState d' (l ++ tail) f) -> w = VState d' (l ++ tail) f.
Proof.
  intros whole d n a m d' l tail f w Hs [Hq|Hq]; inversion Hq; subst; try reflexivity; inversion Hs; subst; discriminate.
Qed.

Lemma reads_vreads : forall whole d p n a m ks o,
  ReadBy whole d p (Elem n a m ks) o <-> vreads whole d p n a m ks o.
Proof.
  intros whole d p n a m ks o. split.
  - intros (n' & a' & m' & ks' & Heq & H) tail f Hv. injection Heq as <- <- <- <-.
    pose (st := DState d (Stream (flat (Elem n a m ks) ++ tail) f) None).
    assert (Hst : view st = VState d (flat (Elem n a m ks) ++ tail) f).
    { unfold view, st; cbn [d_depth d_peeked d_src s_evs s_fin app]. rewrite vis_app, vis_flat, Hv. reflexivity. }
    specialize (H st tail f (proj2 (stands_view _ _ _ _) Hst)).
    destruct (run_view _ p st) as [H1 H2]. rewrite Hst in H1, H2.
    destruct o as [v|e|e|]; try (rewrite <- H1; exact H).
    destruct H as (st' & d' & l & Hr & Hs & Hst'). exists d', l. split; [exact Hs|].
    apply stands_view in Hst'. rewrite Hr in H1, H2. cbn [fst snd] in H1, H2. rewrite Hst' in H2.
    destruct (vrun p _) as [o w]. cbn [fst snd] in *. subst o. f_equal.
    apply (veq_stops _ _ _ _ _ _ _ _ _ _ Hs). left; exact H2.
  - intros H. exists n, a, m, ks. split; [reflexivity|]. intros st tail f Hst.
    apply stands_view in Hst.
    assert (Hp : forall e, d_peeked st = Some e -> visible e = true).
    { intros e He. unfold view in Hst. rewrite He in Hst. inversion Hst; subst. reflexivity. }
    pose proof (view_vis _ _ _ _ Hst Hp) as Hv. rewrite vis_app, vis_flat in Hv. apply app_inv_head in Hv.
    specialize (H tail f Hv). destruct (run_view _ p st) as [H1 H2]. rewrite Hst in H1, H2.
    destruct o as [v|e|e|]; try (rewrite H1; exact H).
    destruct H as (d' & l & Hs & Hr). rewrite Hr in H1, H2. cbn [fst snd] in H1, H2.
    destruct (run p st) as [o st'] eqn:Hrun. cbn [fst snd] in H1, H2. subst o.
    exists st', d', l. split; [reflexivity|]. split; [exact Hs|]. apply stands_view.
    apply (veq_stops _ _ _ _ _ _ _ _ _ _ Hs). right; exact H2.
Qed.

Section Own.
  Variable x : ext.
  Variable E : env.
  Variable rec : nat -> prog value.
  Notation given_by := (attr_reads E rec).

  (** ** Attributes *)
  Lemma own_attr_item : forall b s, visit_attr x E rec b s = oprog (attr_item x given_by b s).
  Proof.
    intros [t|id] s; unfold visit_attr, attr_item, attr_reads.
    - destruct (visit_simple x t s); reflexivity.
    - destruct (nth_error E id) as [td|]; [|reflexivity]. unfold from_str_in.
      destruct (fst (run (rec id) _)); reflexivity.
  Qed.

  Lemma own_items : forall b i fs items c v,
    vrun (visit_attr_items x E rec b i items (slots fs c)) v =
    (omap (fun ca => slots fs (c ++ ca))
          (ocollect (fun s => obind (attr_item x given_by b s) (fun w => OOk [(i, w)])) items), v).
  Proof.
    intros b i fs items; induction items as [|s r IH]; intros c v.
    - simpl. rewrite app_nil_r. reflexivity.
    - cbn [visit_attr_items]. rewrite own_attr_item, vrun_oprog.
      simpl. destruct (attr_item x given_by b s) as [w| | |]; try reflexivity.
      simpl. rewrite slots_put, IH. unfold omap.
      destruct (ocollect _ r) as [l| | |]; try reflexivity.
      simpl. rewrite <- app_assoc. reflexivity.
  Qed.

  Lemma own_load_attr : forall fs f i attrs c v,
    vrun (load_attr x E rec f i attrs (slots fs c)) v =
    (omap (fun ca => slots fs (c ++ ca)) (ocollect (attr_given x given_by i f) attrs), v).
  Proof.
    intros fs f i attrs; induction attrs as [|a r IH]; intros c v.
    - simpl. rewrite app_nil_r. reflexivity.
    - cbn [load_attr]. rewrite vrun_bind.
      assert (Hhead : vrun
          (if String.eqb (n_local (at_name a)) (field_local f) then
             match f_ty f with
             | TBase (BSimple SString) => Ret (upd i (put_slot (VStr (at_value a))) (slots fs c))
             | TVec b => visit_attr_items x E rec b i (split_ws (at_value a)) (slots fs c)
             | TBase b | TOpt b | TOptVec b =>
                 let* w := visit_attr x E rec b (at_value a) in
                 Ret (upd i (put_slot w) (slots fs c))
             end
           else Ret (slots fs c)) v =
          (omap (fun ca => slots fs (c ++ ca)) (attr_given x given_by i f a), v)).
      { unfold attr_given. change (field_local f) with (snd (flabel ya0 f)).
        destruct (String.eqb (n_local (at_name a)) (snd (flabel ya0 f))) eqn:Hn.
        2:{ simpl. rewrite app_nil_r. reflexivity. }
        assert (Hone : forall b,
           vrun (let* w := visit_attr x E rec b (at_value a) in Ret (upd i (put_slot w) (slots fs c))) v =
           (omap (fun ca => slots fs (c ++ ca))
             (obind (attr_item x given_by b (at_value a)) (fun w => OOk [(i, w)])), v)).
        { intros b. rewrite own_attr_item, vrun_oprog.
          destruct (attr_item x given_by b (at_value a)); try reflexivity.
          simpl. rewrite slots_put. reflexivity. }
        destruct (f_ty f) as [b|b|b|b] eqn:Ht; cbn [base_of] in *; try apply Hone.
        - destruct b as [[]|id]; try apply Hone.
          simpl. rewrite slots_put. reflexivity.
        - apply own_items. }
      rewrite Hhead. simpl. destruct (attr_given x given_by i f a) as [ca| | |]; try reflexivity.
      simpl. rewrite IH. unfold omap. destruct (ocollect (attr_given x given_by i f) r); try reflexivity.
      simpl. rewrite <- app_assoc. reflexivity.
  Qed.

  Lemma own_load_attrs : forall all attrs fs i c v,
    vrun (load_attrs x E rec fs i attrs (slots all c)) v =
    (omap (fun ca => slots all (c ++ ca))
       (ocollect (fun p => if ya_attribute (f_attrs (snd p))
                     then ocollect (attr_given x given_by (fst p) (snd p)) attrs else OOk [])
           (combine (seq i (List.length fs)) fs)), v).
  Proof.
    intros all attrs fs; induction fs as [|f fs IH]; intros i c v.
    - simpl. rewrite app_nil_r. reflexivity.
    - rewrite combine_seq_cons. cbn [load_attrs ocollect fst snd]. rewrite vrun_bind.
      destruct (ya_attribute (f_attrs f)) eqn:Ha.
      + rewrite own_load_attr.
        destruct (ocollect (attr_given x given_by i f) attrs) as [ca| | |]; try reflexivity.
        simpl. rewrite IH.
        unfold omap. destruct (ocollect _ (combine (seq (S i) (List.length fs)) fs)); try reflexivity.
        simpl. rewrite <- app_assoc. reflexivity.
      + simpl. rewrite IH.
        unfold omap. destruct (ocollect _ (combine (seq (S i) (List.length fs)) fs)); reflexivity.
  Qed.

  (** ** Children *)
  Variable sub : nat -> node -> outcome value.

  Section Struct.
    Variable fuel : nat.
    Variable td : typedef.
    Variable fs : list field.
    Variable ln : string.
    Variable sd : nat.
    Notation ra := (t_attrs td).
    Notation loop := (struct_loop x E rec fuel).

    (** [U]: what is kept for flattened fields. *)
    Definition kept (k : node) (U : list event) : Prop :=
      flattens fs = true -> U = if is_left ra fs k then flat k else [].

    Definition own_step (k : node) : Prop :=
      forall fl c u L tail fn, vis tail = tail -> (1 <= L)%Z -> len k <= fl ->
      let r := vrun (loop (S fl) td fs ln sd (LState (slots fs c) u L)) (VState (S sd) (flat k ++ tail) fn) in
      match kid_given x sub ra fs k with
      | OOk ck => exists fl' L' U, S fl <= fl' + len k /\ (1 <= L')%Z /\ kept k U /\
          r = vrun (loop fl' td fs ln sd (LState (slots fs (c ++ ck)) (fold_left feed U u) L')) (VState (S sd) tail fn)
      | OErr e => fst r = OErr e
      | OPanic e => fst r = OPanic e
      | OFuel => fst r = OFuel
      end.

    Lemma own_kid : forall k, kid_read x rec sub ra fs k -> len k <= fuel -> own_step k.
    Proof.
      intros k Hk Hfuel fl c u L tail fn Hv HL Hfl r. unfold r; clear r. unfold kid_read in Hk.
      destruct k as [n attrs m kids|s].
      2:{ cbn [kid_given]. change (flat (Txt s) ++ tail) with (EChars s :: tail).
          rewrite loop_text, set_text_slots by assumption.
          exists fl, L, [EChars s]. unfold len; simpl. split; [lia|]. split; [assumption|]. split; [intros _; reflexivity|]. reflexivity. }
      unfold kid_given.
      rewrite flat_elem_app, loop_start by assumption.
      destruct (field_for ra fs n) as [[i f]|] eqn:Hf.
      2:{ (* unknown *)
          rewrite (vrun_next_ev _ _ (S sd) (S (S sd))) by reflexivity.
          rewrite write_unused_feed by discriminate. cbn [bind].
          rewrite vrun_bind, skip_element_nodes by (rewrite len_elem in Hfuel; lia).
          cbn [vrun l_slots l_unused l_depth].
          exists fl, (L + 1)%Z, (flat (Elem n attrs m kids)). rewrite len_elem, app_nil_r. split; [lia|]. split; [lia|].
          split; [intros _; unfold is_left; rewrite Hf; reflexivity|]. reflexivity. }
      assert (Hnone : kept (Elem n attrs m kids) []).
      { intros _. unfold is_left. rewrite Hf. reflexivity. }
      change (fbase (f_ty f)) with (base_of (f_ty f)). destruct (base_of (f_ty f)) as [s|id] eqn:Hb.
      - destruct Hk as [Hns Hkids]. pose proof (field_namespace_ok _ _ _ _ _ Hf Hns) as Hchk.
        unfold simple_given. rewrite vrun_bind.
        destruct Hkids as [(t & v & -> & Hvs)|[Hoff [->|[t ->]]]].
        + simpl flat_map. simpl app at 1. rewrite arm_simple_txt by assumption. rewrite Hvs. cbn [vrun l_slots l_unused l_depth].
          exists fl, (L + 1)%Z, []. rewrite len_elem. unfold lens; simpl. split; [lia|]. split; [lia|]. split; [exact Hnone|]. reflexivity.
        + simpl flat_map. simpl app at 1. rewrite arm_simple_empty by assumption.
          cbn [vrun l_slots l_unused l_depth].
          destruct fl as [|fl]; [rewrite len_elem in Hfl; lia|].
          rewrite loop_inner_end. exists fl, (L + 1 - 1)%Z, [EEnd n]. rewrite len_elem, app_nil_r.
          split; [unfold lens; simpl; lia|]. split; [lia|]. split; [unfold kept; rewrite Hoff; discriminate|]. reflexivity.
        + simpl flat_map. simpl app at 1. rewrite arm_simple_txt by assumption.
          destruct (visit_simple x s t) as [v|e] eqn:Hvs; cbn [vrun l_slots l_unused l_depth].
          * exists fl, (L + 1)%Z, []. rewrite len_elem. unfold lens; simpl. split; [lia|]. split; [lia|]. split; [exact Hnone|]. reflexivity.
          * destruct fl as [|fl]; [rewrite len_elem in Hfl; lia|].
            rewrite loop_inner_end. exists fl, (L + 1 - 1)%Z, [EEnd n]. rewrite len_elem, app_nil_r.
            split; [unfold lens; simpl; lia|]. split; [lia|]. split; [unfold kept; rewrite Hoff; discriminate|]. reflexivity.
      - pose proof (proj1 (reads_vreads _ _ _ _ _ _ _ _) (Hk sd) tail fn Hv) as Hw.
        rewrite vrun_bind. unfold arm_struct.
        replace (Z.eqb L 0) with false by (symmetry; apply Z.eqb_neq; lia).
        rewrite vrun_Peek_ev, vrun_bind. rewrite <- flat_elem_app.
        destruct (sub id (Elem n attrs m kids)) as [v|e|e|];
          try (destruct (vrun (rec id) _) as [o' v']; simpl in Hw; subst o'; reflexivity).
        destruct Hw as (d' & l & Hs & Hw). rewrite Hw. cbn [obind]. unfold kept in *.
        destruct Hs as [whole|t|].
        + cbn [app]. rewrite (vrun_next_ev _ _ _ (S sd)) by reflexivity. cbn [vrun l_slots l_unused l_depth].
          rewrite slots_put. exists fl, (L + 1)%Z, []. rewrite len_elem. split; [lia|]. split; [lia|]. split; [exact Hnone|]. reflexivity.
        + cbn [app]. rewrite (vrun_next_ev _ _ _ (S (S sd))) by reflexivity. cbn [vrun l_slots l_unused l_depth].
          rewrite slots_put. destruct fl as [|fl]; [rewrite len_elem in Hfl; lia|].
          rewrite loop_inner_end. exists fl, (L + 1 - 1)%Z, [EEnd n]. rewrite len_elem.
          split; [lia|]. split; [lia|]. split; [discriminate|]. reflexivity.
        + cbn [app]. rewrite (vrun_next_ev _ _ _ (S (S sd))) by reflexivity. cbn [vrun l_slots l_unused l_depth].
          rewrite slots_put. destruct fl as [|fl]; [rewrite len_elem in Hfl; lia|].
          rewrite loop_inner_end. exists fl, (L + 1 - 1)%Z, [EEnd n]. rewrite len_elem.
          split; [lia|]. split; [lia|]. split; [discriminate|]. reflexivity.
    Qed.

    Definition all_kept (kids : list node) (U : list event) : Prop :=
      flattens fs = true -> U = flat_map flat (filter (is_left ra fs) kids).

    Lemma own_kids : forall kids,
      (forall k, In k kids -> own_step k) ->
      forall n fl c u L tail fn, vis tail = tail -> (1 <= L)%Z -> lens kids < fl -> n_local n = ln ->
      let r := vrun (loop fl td fs ln sd (LState (slots fs c) u L))
                    (VState (S sd) (flat_map flat kids ++ EEnd n :: tail) fn) in
      match ocollect (kid_given x sub ra fs) kids with
      | OOk ck => exists L' U, all_kept kids U /\
          r = (OOk (LState (slots fs (c ++ ck)) (feed (fold_left feed U u) (EEnd n)) L'), VState (S sd) (EEnd n :: tail) fn)
      | OErr e => fst r = OErr e
      | OPanic e => fst r = OPanic e
      | OFuel => fst r = OFuel
      end.
    Proof.
      induction kids as [|k kids IH]; intros Hstep n fl c u L tail fn Hv HL Hfl Hn r.
      - unfold r. simpl. destruct fl as [|fl]; [lia|].
        rewrite loop_own_end by assumption. rewrite app_nil_r. exists L, []. split; [intros _; reflexivity|reflexivity].
      - unfold r. cbn [flat_map ocollect]. rewrite <- app_assoc.
        rewrite lens_cons in Hfl. destruct fl as [|fl]; [lia|].
        assert (Hk : own_step k) by (apply Hstep; left; reflexivity).
        assert (Hv' : vis (flat_map flat kids ++ EEnd n :: tail) = flat_map flat kids ++ EEnd n :: tail).
        { rewrite vis_app, vis_kids. f_equal.
          change (vis (EEnd n :: tail)) with (EEnd n :: vis tail). rewrite Hv. reflexivity. }
        specialize (Hk fl c u L (flat_map flat kids ++ EEnd n :: tail) fn Hv' HL ltac:(lia)).
        cbv zeta in Hk.
        destruct (kid_given x sub ra fs k) as [ck| | |]; cbn [obind]; try exact Hk.
        destruct Hk as (fl' & L' & U & Hfl' & HL' & HU & ->).
        specialize (IH (fun k' Hk' => Hstep k' (or_intror Hk')) n fl' (c ++ ck) (fold_left feed U u) L' tail fn Hv HL' ltac:(lia) Hn).
        cbv zeta in IH.
        destruct (ocollect (kid_given x sub ra fs) kids) as [cks| | |]; cbn [obind]; try exact IH.
        destruct IH as (L2 & U2 & HU2 & ->). exists L2, (U ++ U2). rewrite fold_left_app, app_assoc. split; [|reflexivity].
        intros Hfs. cbn [filter]. rewrite (HU Hfs), (HU2 Hfs). destruct (is_left ra fs k); reflexivity.
    Qed.
  End Struct.

  (** ** Flattened fields *)
  Lemma wflat_written : forall t, events_written (flat t) = wflat t.
  Proof.
    unfold wflat, wevs, events_written. intros t. 
    assert (H : forall e, In e (flat t) -> match e with EStart _ _ _ | EEnd _ | EChars _ => True | _ => False end).
    { induction t as [s|n a m ks IH] using node_ind'; intros e He.
      - destruct He as [<-|[]]. exact I.
      - cbn [flat] in He. destruct He as [<-|He]; [exact I|]. apply in_app_or in He.
        destruct He as [He|[<-|[]]]; [|exact I]. apply in_flat_map in He. destruct He as (k & Hk & He). exact (IH k Hk e He). }
    revert H. generalize (flat t). induction l as [|e l IH]; intros H; [reflexivity|].
    cbn [flat_map]. rewrite IH by (intros; apply H; right; assumption). f_equal.
    specialize (H e (or_introl eq_refl)). destruct e; try destruct H; reflexivity.
  Qed.

  Lemma own_flatten : forall all rest fs i c v,
    (forall j f, nth_error fs j = Some f -> nth_error all (i + j) = Some f) ->
    (forall j f id, i <= j -> nth_error all j = Some f -> flat_field f = true ->
       f_ty f = TBase (BUser id) \/ f_ty f = TOpt (BUser id) -> given j c = []) ->
    vrun (visit_flatten rec fs i (emit_text default_econf (wflat rest)) (slots all c)) v =
    (omap (fun cf => slots all (c ++ cf))
       (ocollect (flat_given (flat_reads rec) rest) (combine (seq i (List.length fs)) fs)), v).
  Proof.
    intros all rest fs; induction fs as [|f fs IH]; intros i c v Hall Hun.
    - simpl. rewrite app_nil_r. reflexivity.
    - rewrite combine_seq_cons. cbn [visit_flatten ocollect]. rewrite vrun_bind.
      assert (Hf : nth_error all i = Some f).
      { rewrite <- (Nat.add_0_r i). apply Hall. reflexivity. }
      assert (Hrest : forall c', (forall j, i < j -> given j c' = given j c) ->
        vrun (visit_flatten rec fs (S i) (emit_text default_econf (wflat rest)) (slots all c')) v =
        (omap (fun cf => slots all (c' ++ cf))
          (ocollect (flat_given (flat_reads rec) rest) (combine (seq (S i) (List.length fs)) fs)), v)).
      { intros c' Hc'. apply IH; auto.
        - intros j g Hg. rewrite <- (Hall (S j) g Hg). f_equal. lia.
        - intros j g id Hj Hg Hfg Hty. rewrite Hc' by lia. apply (Hun j g id); auto; lia. }
      assert (Hput : forall w j, i < j -> given j (c ++ [(i, w)]) = given j c).
      { intros w j Hj. rewrite given_app, given_one.
        replace (Nat.eqb i j) with false by (symmetry; apply Nat.eqb_neq; lia). apply app_nil_r. }
      unfold flat_given at 1. fold (flat_field f).
      change (negb (ya_attribute (f_attrs f)) && ya_flatten (f_attrs f))%bool with (flat_field f).
      destruct (flat_field f) eqn:Hff.
      2:{ cbn [vrun obind]. rewrite Hrest by reflexivity.
          destruct (ocollect _ _); reflexivity. }
      assert (Hin : forall id, from_str_in rec id (emit_text default_econf (wflat rest)) = oprog (flat_reads rec id rest)).
      { intros id. unfold from_str_in, flat_reads. rewrite wflat_written. destruct (fst (run (rec id) _)); reflexivity. }
      destruct (f_ty f) as [[s|id]|[s|id]|b|b] eqn:Hty; try reflexivity; rewrite Hin.
      + destruct (flat_reads rec id rest) as [w| | |]; cbn [oprog bind vrun obind]; try reflexivity.
        rewrite (slots_set all i f) by (try assumption; rewrite Hty; discriminate).
        rewrite Hrest by auto. unfold omap.
        destruct (ocollect _ _); cbn [obind]; try reflexivity. rewrite <- app_assoc. reflexivity.
      + rewrite vrun_bind, vrun_attempt.
        destruct (flat_reads rec id rest) as [w| | |]; cbn [oprog bind vrun obind]; try reflexivity.
        * rewrite (slots_set all i f) by (try assumption; rewrite Hty; discriminate).
          rewrite Hrest by auto. unfold omap.
          destruct (ocollect _ _); cbn [obind]; try reflexivity. rewrite <- app_assoc. reflexivity.
        * rewrite (slots_set_none all i f) by
            (first [assumption | rewrite Hty; discriminate | apply (Hun i f id); auto]).
          rewrite Hrest by auto. destruct (ocollect _ _); reflexivity.
  Qed.

  Theorem own_struct : forall fuel id td fs n attrs m kids d whole,
    nth_error E id = Some td -> t_body td = DStruct fs ->
    (elabel n = root_label td \/ field_for (t_attrs td) fs n = None) ->
    (forall k, In k kids -> kid_read x rec sub (t_attrs td) fs k) ->
    len (Elem n attrs m kids) < fuel ->
    ReadBy whole d (de_body x E rec fuel id) (Elem n attrs m kids)
      (struct_means x E rec sub td fs (Nat.eqb d 0) n attrs m kids).
  Proof.
    intros fuel id td fs n attrs m kids d whole Htd Hbody Hroot Hkids Hfuel.
    apply reads_vreads. intros tail fn Hv. rewrite len_elem in Hfuel.
    unfold de_body. rewrite Htd, Hbody. unfold de_struct, struct_means.
    rewrite flat_elem_app, vrun_peek_ev, vrun_Depth, namespace_check_bad.
    destruct (if Nat.eqb d 0 then bad_namespace (t_attrs td) n else None); [reflexivity|].
    rewrite slots_init. destruct fuel as [|fl]; [lia|].
    rewrite vrun_bind, loop_root by assumption.
    rewrite own_load_attrs. unfold attrs_given, numbered.
    destruct (ocollect _ (combine (seq 0 (List.length fs)) fs)) as [ca| | |] eqn:Hca;
      cbn [omap obind]; try reflexivity.
    assert (Hstep : forall k, In k kids -> own_step (S fl) td fs (n_local n) d k).
    { intros k Hk. apply own_kid; auto. pose proof (len_in _ _ Hk). lia. }
    pose proof (own_kids (S fl) td fs (n_local n) d kids Hstep n fl ([] ++ ca)
      (feed (init_unused fs) (EStart n attrs m)) 1%Z tail fn Hv ltac:(lia) ltac:(lia) eq_refl) as Hloop.
    cbv zeta in Hloop.
    destruct (ocollect (kid_given x sub (t_attrs td) fs) kids) as [ck| | |] eqn:Hck; cbn [obind].
    2-4: (destruct (vrun (struct_loop _ _ _ _ _ _ _ _ _ _) _) as [o' v']; cbn [fst] in Hloop; subst o'; reflexivity).
    destruct Hloop as (L' & U & HU & ->). cbn [l_unused l_slots]. rewrite vrun_bind.
    assert (Hvis : vrun (visit_unused rec fs
         (feed (fold_left feed U (feed (init_unused fs) (EStart n attrs m))) (EEnd n)) (slots fs (([] ++ ca) ++ ck)))
         (VState (S d) (EEnd n :: tail) fn) =
       (omap (fun cf => slots fs (ca ++ ck ++ cf))
          (ocollect (flat_given (flat_reads rec) (Elem n attrs m (filter (is_left (t_attrs td) fs) kids)))
             (combine (seq 0 (List.length fs)) fs)), VState (S d) (EEnd n :: tail) fn)).
    { unfold init_unused.
      change (has_flatten fs) with (flattens fs).
      destruct (flattens fs) eqn:Hflt.
      - rewrite (HU Hflt).
        replace (feed (fold_left feed (flat_map flat (filter (is_left (t_attrs td) fs) kids))
                  (feed (ULive [] []) (EStart n attrs m))) (EEnd n))
          with (fold_left feed (flat (Elem n attrs m (filter (is_left (t_attrs td) fs) kids))) (ULive [] [])).
        2:{ cbn [flat fold_left]. rewrite fold_left_app. reflexivity. }
        rewrite feed_flat. cbn [visit_unused app].
        rewrite own_flatten.
        + unfold omap, numbered. destruct (ocollect (flat_given _ _) _); cbn [obind]; try reflexivity.
          rewrite <- app_assoc. reflexivity.
        + intros j f Hj. exact Hj.
        + intros j f id' _ Hj Hjf Hty. rewrite given_app.
          unfold flat_field in Hjf. apply andb_true_iff in Hjf. destruct Hjf as [Hj1 Hj2].
          apply negb_true_iff in Hj1.
          rewrite !given_none; [reflexivity| |].
          * intros p Hp Heq. destruct (kids_given_index _ _ _ _ _ _ _ Hck Hp) as (g & Hg & Hcase).
            rewrite Heq, Hj in Hg. inversion Hg; subst g. destruct Hcase as [[s Hs]|Hs]; [|congruence].
            destruct Hty as [Hty|Hty]; rewrite Hty in Hs; discriminate.
          * intros p Hp Heq. destruct (attrs_given_index _ _ fs attrs ca p Hca Hp) as (g & Hg & Hga).
            rewrite Heq, Hj in Hg. inversion Hg; subst g. congruence.
      - change (feed UOff (EStart n attrs m)) with UOff. rewrite feed_off. cbn [feed visit_unused vrun].
        rewrite flat_given_none; [cbn [omap obind app]; rewrite app_nil_r; reflexivity|].
        intros f Hf. unfold flattens in Hflt. destruct (flat_field f) eqn:Hff; [|reflexivity].
        exfalso. rewrite (proj2 (existsb_exists flat_field fs)) in Hflt; [discriminate|eauto]. }
    rewrite Hvis. unfold omap.
    destruct (ocollect (flat_given _ _) _) as [cf| | |]; cbn [obind]; try reflexivity.
    rewrite vrun_bind, build_slots. destruct (fields_result x (t_name td) 0 fs (ca ++ ck ++ cf)) as [vs|e]; cbn [ores obind of_res vrun]; [|reflexivity].
    exists (S d), [EEnd n]. split; [constructor|]. reflexivity.
  Qed.

  (** ** Enums *)
  Section Enum.
    Variable td : typedef.
    Variable vs : list variant.
    Variable ln : string.
    Variable sd : nat.
    Hypothesis Htag : ya_tag (t_attrs td) = None.
    Notation eloop := (enum_loop x rec).

    Definition own_estep (k : node) : Prop :=
      forall fl cur tail fn, vis tail = tail -> quiet vs tail -> len k <= fl ->
      let r := vrun (eloop (S fl) td vs ln sd cur) (VState (S sd) (flat k ++ tail) fn) in
      match payload_given x sub vs cur k with
      | OOk cur' => exists fl', S fl <= fl' + len k /\
          r = vrun (eloop fl' td vs ln sd cur') (VState (S sd) tail fn)
      | OErr e => fst r = OErr e
      | OPanic e => fst r = OPanic e
      | OFuel => fst r = OFuel
      end.

    Lemma own_payload : forall k, payload_read rec sub vs k -> own_estep k.
    Proof.
      intros k Hk fl cur tail fn Hvis Hq Hfl r.
      assert (Halien : alien vs k -> payload_given x sub vs cur k = OOk cur ->
        exists fl', S fl <= fl' + len k /\ r = vrun (eloop fl' td vs ln sd cur) (VState (S sd) tail fn)).
      { intros Hal _. exists (S fl - len k). split; [lia|]. unfold r.
        replace (S fl) with (len k + (S fl - len k)) at 1 by lia.
        apply alien_loop; auto. }
      unfold payload_read in Hk. destruct k as [n a m kids|s]; [|apply Halien; [constructor; exact Hk|reflexivity]].
      unfold payload_given in *. destruct (variant_for vs (n_local n)) as [[i [|flg t|]]|] eqn:Hv; try (destruct Hk; fail).
      2:{ apply Halien; [exact Hk|reflexivity]. }
      unfold r. cbn [enum_loop].
      change (flat (Elem n a m kids) ++ tail) with (EStart n a m :: (flat_map flat kids ++ [EEnd n]) ++ tail).
      rewrite vrun_peek_ev, Htag. cbn [enum_element_name of_res bind].
      rewrite find_variant_for, Hv. unfold enum_arm.
      change (fbase t) with (base_of t). 
      change (EStart n a m :: (flat_map flat kids ++ [EEnd n]) ++ tail) with (flat (Elem n a m kids) ++ tail).
      destruct (base_of t) as [s|id] eqn:Hb; rewrite !vrun_bind.
      - pose proof (read_payload_spec x s n a m kids (S sd) tail fn Hk) as Hr. cbv zeta in Hr.
        destruct (parse_simple x s _) as [w|e].
        + rewrite Hr. rewrite set_payload_store, vrun_oprog.
          destruct (store t i w cur) as [c'| | |]; cbn [vrun]; try reflexivity.
          rewrite quiet_next by assumption. exists fl. split; [|reflexivity].
          rewrite len_elem; lia.
        + destruct (vrun (read_payload x s) _) as [o' v']; cbn [fst] in Hr; subst o'. reflexivity.
      - pose proof (proj1 (reads_vreads _ _ _ _ _ _ _ _) (Hk sd) tail fn Hvis) as Hw.
        destruct (sub id (Elem n a m kids)) as [w| | |]; cbn [obind];
          try (destruct (vrun (rec id) _) as [o' v']; simpl in Hw; subst o'; reflexivity).
        destruct Hw as (d' & l & Hs & Hw). rewrite Hw, set_payload_store, vrun_oprog.
        destruct (store t i w cur) as [c'| | |]; try reflexivity.
        inversion Hs; subst; cbn [app].
        + rewrite (vrun_Next_ev _ _ _ (S sd)) by reflexivity. cbn [vrun].
          rewrite quiet_next by assumption. exists fl. split; [rewrite len_elem; lia|reflexivity].
        + rewrite (vrun_Next_ev _ _ _ (S (S sd))) by reflexivity. cbn [vrun].
          rewrite quiet_next by exact I. destruct fl as [|fl]; [rewrite len_elem in Hfl; lia|].
          rewrite eloop_end by lia. exists fl. split; [rewrite len_elem; lia|reflexivity].
        + rewrite (vrun_Next_ev _ _ _ (S (S sd))) by reflexivity. cbn [vrun].
          rewrite quiet_next by exact I. destruct fl as [|fl]; [rewrite len_elem in Hfl; lia|].
          rewrite eloop_end by lia. exists fl. split; [rewrite len_elem; lia|reflexivity].
    Qed.

    Lemma own_payload_txt : forall k, payload_read rec sub vs k -> match k with Txt s => variant_for vs s = None | _ => True end.
    Proof. intros [|s] H; [exact I|exact H]. Qed.

    Lemma own_payloads : forall kids,
      (forall k, In k kids -> own_estep k) ->
      (forall k, In k kids -> match k with Txt s => variant_for vs s = None | _ => True end) ->
      forall n fl cur tail fn, vis tail = tail -> lens kids < fl -> n_local n = ln ->
      agrees (ofold (payload_given x sub vs) kids cur)
             (vrun (eloop fl td vs ln sd cur) (VState (S sd) (flat_map flat kids ++ EEnd n :: tail) fn))
             (VState (S sd) (EEnd n :: tail) fn).
    Proof.
      induction kids as [|k kids IH]; intros Hstep Htxt n fl cur tail fn Hvis Hfl Hn.
      - cbn [ofold flat_map app agrees]. destruct fl as [|fl]; [lia|]. apply eloop_own_end. assumption.
      - cbn [flat_map ofold]. rewrite <- app_assoc. rewrite lens_cons in Hfl.
        destruct fl as [|fl]; [lia|].
        assert (Hv' : vis (flat_map flat kids ++ EEnd n :: tail) = flat_map flat kids ++ EEnd n :: tail).
        { rewrite vis_app, vis_kids. f_equal.
          change (vis (EEnd n :: tail)) with (EEnd n :: vis tail). rewrite Hvis. reflexivity. }
        pose proof (Hstep k (or_introl eq_refl) fl cur (flat_map flat kids ++ EEnd n :: tail) fn Hv') as Hk.
        cbv zeta in Hk.
        assert (Hq : quiet vs (flat_map flat kids ++ EEnd n :: tail)).
        { apply quiet_kids; [|exact I]. intros k' Hk'. apply Htxt. right; assumption. }
        specialize (Hk Hq ltac:(lia)).
        destruct (payload_given x sub vs cur k) as [cur'| | |]; cbn [obind agrees]; try exact Hk.
        destruct Hk as (fl' & Hfl' & ->). apply IH; try assumption; try lia.
        + intros k' Hk'. apply Hstep. right; assumption.
        + intros k' Hk'. apply Htxt. right; assumption.
    Qed.
  End Enum.

  Theorem own_enum : forall fuel id td vs dflt n attrs m kids d whole,
    nth_error E id = Some td -> t_body td = DEnum vs dflt -> ya_tag (t_attrs td) = None ->
    variant_for vs (n_local n) = None ->
    (forall s, kids <> [Txt s]) ->
    (forall k, In k kids -> payload_read rec sub vs k) ->
    len (Elem n attrs m kids) < fuel ->
    ReadBy whole d (de_body x E rec fuel id) (Elem n attrs m kids) (enum_means x sub td vs dflt n kids).
  Proof.
    intros fuel id td vs dflt n attrs m kids d whole Htd Hbody Htag Hn Hns Hkids Hfuel.
    apply reads_vreads. intros tail fn Hvis. rewrite len_elem in Hfuel.
    unfold de_body. rewrite Htd, Hbody. unfold de_enum, enum_means.
    rewrite flat_elem_app, vrun_peek_ev, vrun_Depth, namespace_check_bad.
    destruct (bad_namespace (t_attrs td) n); [reflexivity|].
    destruct fuel as [|fl]; [lia|].
    assert (H : agrees (obind (ofold (payload_given x sub vs) kids None) (fun o => OOk (or_default dflt o)))
      (vrun (let* o := enum_loop x rec (S fl) td vs (n_local n) d None in Ret (or_default dflt o))
         (VState d (EStart n attrs m :: flat_map flat kids ++ EEnd n :: tail) fn)) (VState (S d) (EEnd n :: tail) fn)).
    { apply agrees_bind. rewrite eloop_other; auto.
      - apply own_payloads; auto; [| |lia].
        + intros k Hk. apply own_payload; auto.
        + intros k Hk. eapply own_payload_txt. eauto.
      - apply quiet_kids; [|exact I]. intros k Hk. eapply own_payload_txt. eauto. }
    unfold agrees in H.
    destruct (obind (ofold (payload_given x sub vs) kids None) (fun o => OOk (or_default dflt o))); try exact H.
    exists (S d), [EEnd n]. split; [constructor|]. exact H.
  Qed.
  (** Elements for which no other implementation is called. *)
  Theorem own_unit : forall fuel id td vs dflt n attrs m s d,
    nth_error E id = Some td -> t_body td = DEnum vs dflt -> ya_tag (t_attrs td) = None ->
    variant_for vs (n_local n) = None -> ~ user_payload (variant_for vs s) -> 3 < fuel ->
    ReadBy false d (de_body x E rec fuel id) (Elem n attrs m [Txt s]) (named_means td vs dflt n s).
  Proof.
    intros fuel id td vs dflt n attrs m s d Htd Hbody Htag Hn Hs Hfuel. apply reads_vreads. intros tail fn Hvis.
    unfold de_body. rewrite Htd, Hbody. unfold de_enum, named_means.
    rewrite flat_elem_app, vrun_peek_ev, vrun_Depth, namespace_check_bad.
    destruct (bad_namespace (t_attrs td) n); [reflexivity|].
    cbn [flat_map flat app]. rewrite vrun_bind.
    do 3 (destruct fuel as [|fuel]; [lia|]).
    unfold text_variant.
    set (fl := S (S fuel)). cbn [enum_loop]. rewrite vrun_peek_ev, Htag.
    cbn [enum_element_name of_res bind]. rewrite find_variant_for, Hn. cbn [bind].
    rewrite (vrun_Next_ev _ _ d (S d)) by reflexivity. cbn [bind].
    rewrite vrun_peek_ev, find_variant_for, vrun_bind.
    destruct (variant_for vs s) as [[i [|flg t|]]|] eqn:Hv; cbn [enum_arm].
    - exists (S d), [EChars s; EEnd n]. split; [constructor|reflexivity].
    - change (fbase t) with (base_of t). destruct (base_of t) as [sm|id'] eqn:Hb.
      2:{ exfalso. apply Hs. exists i, flg, t, id'. auto. }
      exists (S d), [EEnd n]. split; [constructor|].
      rewrite vrun_bind. unfold read_payload. rewrite vrun_attempt. unfold read_inner_value.
      rewrite (vrun_Next_ev _ _ (S d) (S d)) by reflexivity. cbn [vrun]. unfold fl.
      rewrite eloop_own_end by reflexivity. reflexivity.
    - exfalso. unfold variant_for in Hv. destruct (find _ _) as [[j v]|] eqn:Hf; [|discriminate].
      apply find_some in Hf. destruct Hf as [_ Hf]. cbn [snd] in Hf. injection Hv as _ Hv. rewrite Hv in Hf. discriminate.
    - exists (S d), [EEnd n]. split; [constructor|]. cbn [vrun]. unfold fl. rewrite eloop_txt, eloop_own_end by reflexivity. reflexivity.
  Qed.

  Theorem own_tagged : forall fuel id td vs dflt tg n attrs m d,
    nth_error E id = Some td -> t_body td = DEnum vs dflt -> ya_tag (t_attrs td) = Some tg ->
    (forall a b, In a attrs -> n_local (at_name a) = tg ->
       variant_for vs (at_value a) = b -> b = None \/ exists i, b = Some (i, VbUnit)) ->
    2 < fuel ->
    ReadBy false d (de_body x E rec fuel id) (Elem n attrs m [])
      (match find (fun a => String.eqb (n_local (at_name a)) tg) attrs with
       | Some a => named_means td vs dflt n (at_value a)
       | None => obind (named_means td vs dflt n "") (fun _ => OErr ("Expected enum tagged with " +++ tg))
       end).
  Proof.
    intros fuel id td vs dflt tg n attrs m d Htd Hbody Htag Ha Hfuel. apply reads_vreads. intros tail fn Hvis.
    unfold de_body. rewrite Htd, Hbody. unfold de_enum, named_means.
    rewrite flat_elem_app, vrun_peek_ev, vrun_Depth, namespace_check_bad.
    destruct (bad_namespace (t_attrs td) n); [destruct (find _ attrs); reflexivity|].
    cbn [flat_map flat app]. rewrite vrun_bind.
    do 2 (destruct fuel as [|fuel]; [lia|]).
    cbn [enum_loop]. rewrite vrun_peek_ev, Htag. cbn [enum_element_name].
    destruct (find (fun a => String.eqb (n_local (at_name a)) tg) attrs) as [a|] eqn:Hf; [|reflexivity].
    apply find_some in Hf. destruct Hf as [Hin Hloc]. apply String.eqb_eq in Hloc.
    cbn [of_res bind]. rewrite find_variant_for. unfold text_variant.
    destruct (Ha a _ Hin Hloc eq_refl) as [-> | [i ->]].
    - exists (S d), [EEnd n]. split; [constructor|]. cbn [bind]. rewrite (vrun_Next_ev _ _ d (S d)) by reflexivity. cbn [bind].
      rewrite vrun_peek_ev.
      change (vrun ?p (VState (S d) (EEnd n :: tail) fn)) with (vrun p (VState (S d) (EEnd n :: tail) fn)).
      rewrite vrun_peek_ev, vrun_Depth. rewrite String.eqb_refl, Nat.eqb_refl. reflexivity.
    - exists d, [EStart n attrs m; EEnd n]. split; [constructor|]. reflexivity.
  Qed.

  Theorem own_prim : forall fuel id td k n attrs m kids d,
    nth_error E id = Some td -> t_body td = DPrim k -> (kids = [] \/ exists s, kids = [Txt s]) ->
    ReadBy false d (de_body x E rec fuel id) (Elem n attrs m kids)
      (ores (parse_prim x (t_name td) k (match kids with [Txt s] => s | _ => "" end))).
  Proof.
    intros fuel id td k n attrs m kids d Htd Hbody Hkids. apply reads_vreads. intros tail fn Hvis.
    unfold de_body. rewrite Htd, Hbody. unfold de_prim.
    rewrite flat_elem_app, vrun_Peek_ev, (vrun_next_ev _ _ d (S d)) by reflexivity.
    destruct Hkids as [->|[s ->]]; cbn [flat_map flat app]; rewrite vrun_Peek_ev;
    destruct (parse_prim x (t_name td) k _); cbn [ores]; try reflexivity;
    [exists (S d), [EEnd n]|exists (S d), [EChars s; EEnd n]]; (split; [constructor|reflexivity]).
  Qed.
End Own.

(** ** The whole program *)
Lemma de_with_unfold : forall x E own fuel id, own id = None ->
  de_with x E own (S fuel) id = de_body x E (de_with x E own fuel) fuel id.
Proof. intros x E own fuel id H. cbn [de_with]. rewrite H. reflexivity. Qed.

Lemma de_with_none : forall x E fuel, de_with x E (fun _ => None) fuel = De.de x E fuel.
Proof.
  intros x E fuel. induction fuel as [|f IH]; [reflexivity|].
  change (de_with x E (fun _ => None) (S f)) with (fun id => de_body x E (de_with x E (fun _ => None) f) f id).
  rewrite IH. reflexivity.
Qed.

Theorem with_struct : forall x E own fuel id td fs n attrs m kids sub d whole,
  own id = None -> nth_error E id = Some td -> t_body td = DStruct fs ->
  (elabel n = root_label td \/ field_for (t_attrs td) fs n = None) ->
  (forall k, In k kids -> kid_read x (de_with x E own fuel) sub (t_attrs td) fs k) ->
  List.length (flat (Elem n attrs m kids)) < fuel ->
  ReadBy whole d (de_with x E own (S fuel) id) (Elem n attrs m kids)
    (struct_means x E (de_with x E own fuel) sub td fs (Nat.eqb d 0) n attrs m kids).
Proof. intros. rewrite de_with_unfold by assumption. apply own_struct; assumption. Qed.

Theorem with_enum : forall x E own fuel id td vs dflt n attrs m kids sub d whole,
  own id = None -> nth_error E id = Some td -> t_body td = DEnum vs dflt -> ya_tag (t_attrs td) = None ->
  variant_for vs (n_local n) = None -> (forall s, kids <> [Txt s]) ->
  (forall k, In k kids -> payload_read (de_with x E own fuel) sub vs k) ->
  List.length (flat (Elem n attrs m kids)) < fuel ->
  ReadBy whole d (de_with x E own (S fuel) id) (Elem n attrs m kids) (enum_means x sub td vs dflt n kids).
Proof. intros. rewrite de_with_unfold by assumption. eapply own_enum; eassumption. Qed.

Theorem with_unit : forall x E own fuel id td vs dflt n attrs m s d,
  own id = None -> nth_error E id = Some td -> t_body td = DEnum vs dflt -> ya_tag (t_attrs td) = None ->
  variant_for vs (n_local n) = None -> ~ user_payload (variant_for vs s) -> 3 < fuel ->
  ReadBy false d (de_with x E own (S fuel) id) (Elem n attrs m [Txt s]) (named_means td vs dflt n s).
Proof. intros. rewrite de_with_unfold by assumption. apply own_unit; assumption. Qed.
Theorem with_tagged : forall x E own fuel id td vs dflt tg n attrs m d,
  own id = None -> nth_error E id = Some td -> t_body td = DEnum vs dflt -> ya_tag (t_attrs td) = Some tg ->
  (forall a b, In a attrs -> n_local (at_name a) = tg ->
     variant_for vs (at_value a) = b -> b = None \/ exists i, b = Some (i, VbUnit)) ->
  2 < fuel ->
  ReadBy false d (de_with x E own (S fuel) id) (Elem n attrs m [])
    (match find (fun a => String.eqb (n_local (at_name a)) tg) attrs with
     | Some a => named_means td vs dflt n (at_value a)
     | None => obind (named_means td vs dflt n "") (fun _ => OErr ("Expected enum tagged with " +++ tg))
     end).
Proof. intros. rewrite de_with_unfold by assumption. apply own_tagged; assumption. Qed.
Theorem with_prim : forall x E own fuel id td k n attrs m kids d,
  own id = None -> nth_error E id = Some td -> t_body td = DPrim k -> (kids = [] \/ exists s, kids = [Txt s]) ->
  ReadBy false d (de_with x E own (S fuel) id) (Elem n attrs m kids)
    (ores (parse_prim x (t_name td) k (match kids with [Txt s] => s | _ => "" end))).
Proof. intros. rewrite de_with_unfold by assumption. apply own_prim; assumption. Qed.

Theorem read_document : forall whole p t o s tail f, ReadBy whole 0 p t o ->
  parse_text s = Stream (EStartDoc :: flat t ++ tail) f -> fst (run p (d_init (parse_text s))) = o.
Proof.
  intros whole p t o s tail f (n & a & m & ks & -> & H) Hs. rewrite Hs.
  specialize (H (d_init (Stream (EStartDoc :: flat (Elem n a m ks) ++ tail) f)) (vis tail) f).
  assert (Hst : stands (d_init (Stream (EStartDoc :: flat (Elem n a m ks) ++ tail) f)) 0 (flat (Elem n a m ks) ++ vis tail) f).
  { apply stands_view. unfold view, d_init; cbn [d_depth d_peeked d_src s_evs s_fin app].
    change (vis (EStartDoc :: flat (Elem n a m ks) ++ tail)) with (vis (flat (Elem n a m ks) ++ tail)).
    rewrite vis_app, vis_flat. reflexivity. }
  specialize (H Hst). destruct o as [v|e|e|]; try exact H.
  destruct H as (st' & d' & l & -> & _). reflexivity.
Qed.

(** Derived types alone meet the contract. *)
Theorem derived_reads : forall x E k id t, Conforms x E k id t ->
  exists N, forall fuel d, N <= fuel -> ReadBy false d (De.de x E fuel id) t (value_of x E k (Nat.eqb d 0) id t).
Proof.
  intros x E k id t Hc. exists (len t + 6 + 4 * k). intros fuel d Hf.
  pose proof (value_works x E k fuel id t Hc ltac:(lia)) as Hw.
  pose proof Hc as Hc'. rewrite Conforms_Fits in Hc'. destruct (fits_elem _ _ _ _ _ _ Hc') as (n & a & m & ks & ->).
  apply reads_vreads. intros tail f _. specialize (Hw d f tail). rewrite value_of_decode. unfold agrees in Hw.
  destruct (decode x E _ _ (Nat.eqb d 0) id (Elem n a m ks)) as [v|e|e|]; try exact Hw.
  do 2 eexists. split; [|exact Hw].
  assert (Htd : exists td, nth_error E id = Some td) by (inversion Hc'; subst; eauto).
  destruct Htd as [td Htd]. unfold left_over. rewrite Htd.
  destruct (t_body td) as [|vs dflt|].
  - constructor.
  - destruct (ya_tag (t_attrs td)) as [tg|].
    + destruct (find _ a) as [b|]; [|constructor].
      destruct (variant_for vs (at_value b)) as [[? []]|] eqn:Hv; try constructor.
    + destruct ks as [|[|s] [|]]; try constructor. destruct (variant_for vs s) as [[? []]|]; constructor.
  - destruct ks as [|[|s] [|]]; constructor.
Qed.
