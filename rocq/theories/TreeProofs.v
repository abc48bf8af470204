(** * Refinement: the generated deserializers compute [decode] on conforming
      document trees. *)
From Verif Require Import Str Num Xml XmlText Reader Schema De RunFacts SpecTree TreeFacts.
Open Scope list_scope.

(** A finished computation as a program. *)
Definition oprog {A} (o : outcome A) : prog A :=
  match o with
  | OOk a => Ret a
  | OErr m => Throw m
  | OPanic m => Crash m
  | OFuel => Stuck
  end.

Lemma vrun_oprog : forall A B (o : outcome A) (K : A -> prog B) v,
  vrun (bind (oprog o) K) v =
  match o with
  | OOk a => vrun (K a) v
  | OErr m => (OErr m, v)
  | OPanic m => (OPanic m, v)
  | OFuel => (OFuel, v)
  end.
Proof. intros; destruct o; reflexivity. Qed.

Definition omap {A B} (g : A -> B) (o : outcome A) : outcome B := obind o (fun a => OOk (g a)).

(** [r] is the expected outcome; on success the reader is in state [s]. *)
Definition agrees {A} (o : outcome A) (r : outcome A * vstate) (s : vstate) : Prop :=
  match o with
  | OOk v => r = (OOk v, s)
  | o => fst r = o
  end.

(** Writer events of a tree. *)
Definition wevs (l : list event) : list wevent :=
  flat_map (fun e => match as_writer_event e with Some w => [w] | None => [] end) l.
Definition wflat (t : node) : list wevent := wevs (flat t).

Lemma wevs_app : forall a b, wevs (a ++ b) = wevs a ++ wevs b.
Proof. intros; apply flat_map_app. Qed.

Lemma name_eqb_refl : forall n, name_eqb n n = true.
Proof.
  intros [l n p]; unfold name_eqb; simpl. rewrite String.eqb_refl.
  destruct n, p; simpl; rewrite ?String.eqb_refl; reflexivity.
Qed.

Lemma feed_flat : forall t st evs,
  fold_left feed (flat t) (ULive st evs) = ULive st (evs ++ wflat t).
Proof.
  induction t using node_ind'; intros st evs; [reflexivity|].
  unfold wflat. cbn [flat fold_left]. rewrite fold_left_app.
  change (feed (ULive st evs) (EStart n a m)) with (ULive (n :: st) (evs ++ [WStart n a m])).
  change (wevs (EStart n a m :: flat_map flat ks ++ [EEnd n]))
    with (WStart n a m :: wevs (flat_map flat ks ++ [EEnd n])).
  rewrite wevs_app.
  assert (Hks : forall st evs, fold_left feed (flat_map flat ks) (ULive st evs) = ULive st (evs ++ wevs (flat_map flat ks))).
  { clear st evs. induction ks as [|k ks IH]; intros st evs.
    - simpl. rewrite app_nil_r. reflexivity.
    - cbn [flat_map]. rewrite fold_left_app, (H k (or_introl eq_refl)), IH.
      + rewrite wevs_app, <- app_assoc. reflexivity.
      + intros k' Hk'. apply H. right; assumption. }
  rewrite Hks. simpl. rewrite name_eqb_refl. simpl. rewrite <- !app_assoc. reflexivity.
Qed.

Lemma not_single_txt : forall A (kids : list node) (g : string -> A) b,
  (forall s, kids <> [Txt s]) ->
  match kids with [Txt s] => g s | _ => b end = b.
Proof.
  intros A [|[|s] [|]] g b H; try reflexivity. exfalso; eapply H; reflexivity.
Qed.

Section Refine.
  Variable x : ext.
  Variable E : env.
  Variable attr_value : nat -> string -> outcome value.
  Variable flat_value : nat -> node -> outcome value.
  Variable attr_fine : nat -> string -> Prop.
  Variable flat_fine : nat -> node -> Prop.
  (** Extra fuel for documents built by the generated code. *)
  Variable K : nat.

  Hypothesis Hattr : forall f id s, attr_fine id s -> 5 + K < f ->
    exists td, nth_error E id = Some td /\
    from_str x E f id ("<" +++ t_name td +++ ">" +++ s +++ "</" +++ t_name td +++ ">") = attr_value id s.
  Hypothesis Hflat : forall f id r, flat_fine id r -> len r + 4 + K < f ->
    from_str x E f id (emit_text default_econf (wflat r)) = flat_value id r.

  Notation decode := (decode x E attr_value flat_value).
  Notation Fits := (Fits x E attr_fine flat_fine).
  Notation KidFits := (KidFits x E attr_fine flat_fine).
  Notation PayloadFits := (PayloadFits x E attr_fine flat_fine).

  (** Events of the element left unread by a deserializer. *)
  Definition left_over (id : nat) (t : node) : list event :=
    match t, nth_error E id with
    | Elem n attrs m kids, Some td =>
        match t_body td with
        | DStruct _ => [EEnd n]
        | DEnum vs _ =>
            match ya_tag (t_attrs td) with
            | Some tg =>
                match find (fun a => String.eqb (n_local (at_name a)) tg) attrs with
                | Some a => match variant_for vs (at_value a) with
                            | Some (_, VbUnit) => [EStart n attrs m; EEnd n]
                            | _ => [EEnd n]
                            end
                | None => [EEnd n]
                end
            | None =>
                match kids with
                | [Txt s] => match variant_for vs s with
                             | Some (_, VbUnit) => [EChars s; EEnd n]
                             | _ => [EEnd n]
                             end
                | _ => [EEnd n]
                end
            end
        | DPrim _ =>
            match kids with
            | [Txt s] => [EChars s; EEnd n]
            | _ => [EEnd n]
            end
        end
    | _, _ => []
    end.

  Definition left_depth (d : nat) (l : list event) : nat :=
    match l with EStart _ _ _ :: _ => d | _ => S d end.

  Lemma left_over_shape : forall id n a m ks td d, nth_error E id = Some td ->
    exists e r, left_over id (Elem n a m ks) = e :: r /\
      ((r = [] /\ bump (left_depth d (left_over id (Elem n a m ks))) e = Some d) \/
       (r = [EEnd n] /\ bump (left_depth d (left_over id (Elem n a m ks))) e = Some (S d))).
  Proof.
    intros id n a m ks td d Htd. unfold left_over. rewrite Htd.
    assert (H1 : exists e r, [EEnd n] = e :: r /\
      ((r = [] /\ bump (left_depth d [EEnd n]) e = Some d) \/ (r = [EEnd n] /\ bump (left_depth d [EEnd n]) e = Some (S d)))).
    { do 2 eexists; split; [reflexivity|]. left; auto. }
    assert (H2 : forall s, exists e r, [EChars s; EEnd n] = e :: r /\
      ((r = [] /\ bump (left_depth d [EChars s; EEnd n]) e = Some d) \/ (r = [EEnd n] /\ bump (left_depth d [EChars s; EEnd n]) e = Some (S d)))).
    { intros s. do 2 eexists; split; [reflexivity|]. right; auto. }
    assert (H3 : exists e r, [EStart n a m; EEnd n] = e :: r /\
      ((r = [] /\ bump (left_depth d [EStart n a m; EEnd n]) e = Some d) \/ (r = [EEnd n] /\ bump (left_depth d [EStart n a m; EEnd n]) e = Some (S d)))).
    { do 2 eexists; split; [reflexivity|]. right; auto. }
    destruct (t_body td) as [|vs dflt|].
    - exact H1.
    - destruct (ya_tag (t_attrs td)) as [tg|].
      + destruct (find _ a) as [at_|]; [|exact H1].
        destruct (variant_for vs (at_value at_)) as [[? []]|]; assumption.
      + destruct ks as [|[|s] [|]]; try exact H1.
        destruct (variant_for vs s) as [[? []]|]; auto.
    - destruct ks as [|[|s] [|]]; try exact H1. apply H2.
  Qed.

  Definition works (rec : nat -> prog value) (id : nat) (t : node) : Prop :=
    forall d f tail,
    agrees (decode (Nat.eqb d 0) id t)
           (vrun (rec id) (VState d (flat t ++ tail) f))
           (VState (left_depth d (left_over id t)) (left_over id t ++ tail) f).

  (** ** Attributes *)
  Section Attrs.
    Variable fuel : nat.
    Hypothesis Hfuel : 5 + K < fuel.
    Notation rec := (De.de x E fuel).

    Lemma visit_attr_item : forall b s,
      (forall id, b = BUser id -> attr_fine id s) ->
      visit_attr x E rec b s = oprog (attr_item x attr_value b s).
    Proof.
      intros [t|id] s Hf; unfold visit_attr, attr_item.
      - destruct (visit_simple x t s); reflexivity.
      - destruct (Hattr fuel id s (Hf id eq_refl) Hfuel) as (td & Htd & Heq).
        rewrite Htd. unfold from_str_in. unfold from_str, from_events in Heq.
        rewrite Heq. destruct (attr_value id s); reflexivity.
    Qed.

    Lemma visit_items : forall b i fs items c v,
      (forall id s, b = BUser id -> In s items -> attr_fine id s) ->
      vrun (visit_attr_items x E rec b i items (slots fs c)) v =
      (omap (fun ca => slots fs (c ++ ca))
            (ocollect (fun s => obind (attr_item x attr_value b s) (fun w => OOk [(i, w)])) items), v).
    Proof.
      intros b i fs items; induction items as [|s r IH]; intros c v Hf.
      - simpl. rewrite app_nil_r. reflexivity.
      - cbn [visit_attr_items]. rewrite visit_attr_item, vrun_oprog.
        2:{ intros id Hb. apply (Hf id s Hb). left; reflexivity. }
        simpl. destruct (attr_item x attr_value b s) as [w| | |]; try reflexivity.
        simpl. rewrite slots_put, IH by (intros; eapply Hf; [eassumption|right; assumption]).
        unfold omap.
        destruct (ocollect _ r) as [l| | |]; try reflexivity.
        simpl. rewrite <- app_assoc. reflexivity.
    Qed.

    Lemma load_attr_given : forall fs f i attrs c v,
      (forall a id, In a attrs -> n_local (at_name a) = snd (flabel ya0 f) -> base_of (f_ty f) = BUser id ->
         match f_ty f with
         | TVec _ => forall s, In s (split_ws (at_value a)) -> attr_fine id s
         | _ => attr_fine id (at_value a)
         end) ->
      vrun (load_attr x E rec f i attrs (slots fs c)) v =
      (omap (fun ca => slots fs (c ++ ca)) (ocollect (attr_given x attr_value i f) attrs), v).
    Proof.
      intros fs f i attrs; induction attrs as [|a r IH]; intros c v Hf.
      - simpl. rewrite app_nil_r. reflexivity.
      - assert (IHr : forall c v, vrun (load_attr x E rec f i r (slots fs c)) v =
            (omap (fun ca => slots fs (c ++ ca)) (ocollect (attr_given x attr_value i f) r), v)).
        { intros; apply IH. intros a' id Hin. apply Hf. right; assumption. }
        cbn [load_attr]. rewrite vrun_bind.
        assert (Hhead : vrun
            (if String.eqb (n_local (at_name a)) (field_local f) then
               match f_ty f with
               | TBase (BSimple SString) => Ret (upd i (put_slot (VStr (at_value a))) (slots fs c))
               | TVec b => visit_attr_items x E rec b i (split_ws (at_value a)) (slots fs c)
               | TBase b | TOpt b | TOptVec b =>
                   let* w := visit_attr x E rec b (at_value a) in
                   Ret (upd i (put_slot w) (slots fs c))
               end
             else Ret (slots fs c)) v =
            (omap (fun ca => slots fs (c ++ ca)) (attr_given x attr_value i f a), v)).
        { unfold attr_given. change (field_local f) with (snd (flabel ya0 f)).
          specialize (Hf a). destruct (String.eqb (n_local (at_name a)) (snd (flabel ya0 f))) eqn:Hn.
          2:{ simpl. rewrite app_nil_r. reflexivity. }
          apply String.eqb_eq in Hn.
          specialize (fun id => Hf id (or_introl eq_refl) Hn).
          assert (Hone : forall b, base_of (f_ty f) = b -> (forall b', f_ty f <> TVec b') ->
             vrun (let* w := visit_attr x E rec b (at_value a) in Ret (upd i (put_slot w) (slots fs c))) v =
             (omap (fun ca => slots fs (c ++ ca))
               (obind (attr_item x attr_value b (at_value a)) (fun w => OOk [(i, w)])), v)).
          { intros b Hb Hnv. rewrite visit_attr_item, vrun_oprog.
            - destruct (attr_item x attr_value b (at_value a)); try reflexivity.
              simpl. rewrite slots_put. reflexivity.
            - intros id ->. specialize (Hf id Hb). destruct (f_ty f); auto.
              exfalso; eapply Hnv; reflexivity. }
          destruct (f_ty f) as [b|b|b|b] eqn:Ht; cbn [base_of] in *.
          - destruct b as [[]|id]; try (apply Hone; [reflexivity|discriminate]).
            simpl. rewrite slots_put. reflexivity.
          - apply Hone; [reflexivity|discriminate].
          - apply visit_items. intros id s Hb Hs. apply (Hf id Hb s Hs).
          - apply Hone; [reflexivity|discriminate]. }
        rewrite Hhead. simpl. destruct (attr_given x attr_value i f a) as [ca| | |]; try reflexivity.
        simpl. rewrite IHr. unfold omap. destruct (ocollect (attr_given x attr_value i f) r); try reflexivity.
        simpl. rewrite <- app_assoc. reflexivity.
    Qed.

    Lemma load_attrs_given : forall all attrs, attrs_fine attr_fine all attrs ->
      forall fs i c v, (forall f, In f fs -> In f all) ->
      vrun (load_attrs x E rec fs i attrs (slots all c)) v =
      (omap (fun ca => slots all (c ++ ca))
         (ocollect (fun p => if ya_attribute (f_attrs (snd p))
                       then ocollect (attr_given x attr_value (fst p) (snd p)) attrs else OOk [])
             (combine (seq i (List.length fs)) fs)), v).
    Proof.
      intros all attrs Hfine fs; induction fs as [|f fs IH]; intros i c v Hin.
      - simpl. rewrite app_nil_r. reflexivity.
      - rewrite combine_seq_cons. cbn [load_attrs ocollect fst snd]. rewrite vrun_bind.
        destruct (ya_attribute (f_attrs f)) eqn:Ha.
        + rewrite load_attr_given.
          2:{ intros a id Ha' Hl Hb. apply (Hfine f a id); auto. apply Hin; left; reflexivity. }
          destruct (ocollect (attr_given x attr_value i f) attrs) as [ca| | |]; try reflexivity.
          simpl. rewrite IH by (intros; apply Hin; right; assumption).
          unfold omap. destruct (ocollect _ (combine (seq (S i) (List.length fs)) fs)); try reflexivity.
          simpl. rewrite <- app_assoc. reflexivity.
        + simpl. rewrite IH by (intros; apply Hin; right; assumption).
          unfold omap. destruct (ocollect _ (combine (seq (S i) (List.length fs)) fs)); reflexivity.
    Qed.
  End Attrs.

  (** ** Struct children *)
  Definition kid_unused (ra : yattr) (fs : list field) (k : node) : list event :=
    match k with
    | Txt s => [EChars s]
    | Elem n _ _ kids =>
        match field_for ra fs n with
        | None => flat k
        | Some (i, f) =>
            match base_of (f_ty f) with
            | BUser id => tl (left_over id k)
            | BSimple s =>
                match kids with
                | [Txt t] => match visit_simple x s t with Ok _ => [] | Er _ => [EEnd n] end
                | _ => [EEnd n]
                end
            end
        end
    end.

  Section Struct.
    Variable rec : nat -> prog value.
    Variable fuel : nat.
    Variable td : typedef.
    Variable fs : list field.
    Variable ln : string.
    Variable sd : nat.
    Notation ra := (t_attrs td).
    Notation loop := (struct_loop x E rec fuel).

    (** End tags: of an element inside, and of the struct's own element. *)
    Lemma loop_inner_end : forall fl n ss u L tail fn,
      vrun (loop (S fl) td fs ln sd (LState ss u L)) (VState (S (S sd)) (EEnd n :: tail) fn) =
      vrun (loop fl td fs ln sd (LState ss (feed u (EEnd n)) (L - 1))) (VState (S sd) tail fn).
    Proof.
      intros fl n ss u L tail fn.
      cbn [struct_loop]. rewrite vrun_peek_ev, vrun_Depth.
      replace (Nat.eqb (S (S sd)) (S sd)) with false by (symmetry; apply Nat.eqb_neq; lia).
      rewrite andb_false_r. rewrite (vrun_next_ev _ _ (S (S sd)) (S sd)) by reflexivity.
      rewrite write_unused_feed by discriminate. reflexivity.
    Qed.

    Lemma loop_own_end : forall fl n ss u L tail fn, n_local n = ln ->
      vrun (loop (S fl) td fs ln sd (LState ss u L)) (VState (S sd) (EEnd n :: tail) fn) =
      (OOk (LState ss (feed u (EEnd n)) L), VState (S sd) (EEnd n :: tail) fn).
    Proof.
      intros fl n ss u L tail fn <-.
      cbn [struct_loop]. rewrite vrun_peek_ev, vrun_Depth.
      rewrite String.eqb_refl, Nat.eqb_refl. simpl andb. cbv iota.
      rewrite write_unused_feed by discriminate. reflexivity.
    Qed.

    Lemma loop_text : forall fl t ss u L d tail fn,
      vrun (loop (S fl) td fs ln sd (LState ss u L)) (VState d (EChars t :: tail) fn) =
      vrun (loop fl td fs ln sd (LState (set_text t fs ss) (feed u (EChars t)) L)) (VState d tail fn).
    Proof.
      intros. cbn [struct_loop]. rewrite vrun_peek_ev.
      rewrite (vrun_next_ev _ _ d d) by reflexivity.
      rewrite write_unused_feed by discriminate. reflexivity.
    Qed.

    (** A start tag inside the element. *)
    Lemma loop_start : forall fl n attrs m ss u L d tail fn, (1 <= L)%Z ->
      vrun (loop (S fl) td fs ln sd (LState ss u L)) (VState d (EStart n attrs m :: tail) fn) =
      match vrun (match field_for ra fs n with
                  | Some (i, f) =>
                     let* ss1 :=
                       (match fbase (f_ty f) with
                        | BUser id => arm_struct rec i id L ss
                        | BSimple s => arm_simple x ra i f s n ss
                        end) in
                     Ret (LState ss1 u L)
                  | None =>
                     let* ev := next_ in
                     let* u1 := write_unused u ev in
                     let* u' := skip_element fuel write_unused u1 in
                     Ret (LState ss u' L)
                  end) (VState d (EStart n attrs m :: tail) fn) with
      | (OOk st1, v) => vrun (loop fl td fs ln sd (LState (l_slots st1) (l_unused st1) (l_depth st1 + 1))) v
      | (OErr e, v) => (OErr e, v)
      | (OPanic e, v) => (OPanic e, v)
      | (OFuel, v) => (OFuel, v)
      end.
    Proof.
      intros fl n attrs m ss u L d tail fn HL.
      cbn [struct_loop]. rewrite vrun_peek_ev. cbn [l_depth l_slots l_unused].
      replace (Z.eqb L 0) with false by (symmetry; apply Z.eqb_neq; lia).
      replace (Z.ltb 0 L) with true by (symmetry; apply Z.ltb_lt; lia).
      cbn [andb]. rewrite vrun_bind, find_field_for.
      destruct (field_for ra fs n) as [[i f]|].
      - rewrite !vrun_bind.
        destruct (vrun (match fbase (f_ty f) with
                        | BUser id => arm_struct rec i id L ss
                        | BSimple s => arm_simple x ra i f s n ss
                        end) _) as [[ss1| | |] v]; try reflexivity.
        simpl. replace (Z.eqb L 0) with false by (symmetry; apply Z.eqb_neq; lia). reflexivity.
      - destruct (vrun (let* ev := next_ in _) _) as [[st1|e|e|] v] eqn:Hr; try reflexivity.
        assert (Hd : l_depth st1 = L).
        { rewrite vrun_bind in Hr. destruct (vrun next_ _) as [[ev| | |] v1]; try discriminate.
          rewrite vrun_bind in Hr. destruct (vrun (write_unused u ev) v1) as [[u1| | |] v2]; try discriminate.
          rewrite vrun_bind in Hr. destruct (vrun (skip_element fuel write_unused u1) v2) as [[u2| | |] v3]; try discriminate.
          simpl in Hr. inversion Hr; subst. reflexivity. }
        rewrite Hd. replace (Z.eqb L 0) with false by (symmetry; apply Z.eqb_neq; lia). reflexivity.
    Qed.

    Lemma arm_simple_txt : forall i f s n attrs m c t d tail fn,
      namespace_check (ya_namespaces ra) (ya_prefix (f_attrs f)) (n_ns n) (n_local n) = None ->
      vrun (arm_simple x ra i f s n (slots fs c)) (VState d (EStart n attrs m :: EChars t :: EEnd n :: tail) fn) =
      match visit_simple x s t with
      | Ok v => (OOk (slots fs (c ++ [(i, v)])), VState d tail fn)
      | Er _ => (OOk (slots fs c), VState (S d) (EEnd n :: tail) fn)
      end.
    Proof.
      intros i f s n attrs m c t d tail fn Hns. unfold arm_simple. rewrite Hns.
      rewrite vrun_bind, vrun_attempt. unfold read_inner_value.
      rewrite (vrun_Next_ev _ _ d (S d)) by reflexivity.
      rewrite vrun_bind, vrun_Peek_ev, (vrun_next_ev _ _ (S d) (S d)) by reflexivity.
      destruct (visit_simple x s t) as [v|e]; [|reflexivity].
      cbn [of_res vrun]. unfold expect_end_element. rewrite vrun_bind.
      rewrite (vrun_next_ev _ _ (S d) d) by reflexivity.
      rewrite name_eqb_refl. simpl. rewrite slots_put. reflexivity.
    Qed.

    Lemma arm_simple_empty : forall i f s n attrs m c d tail fn,
      namespace_check (ya_namespaces ra) (ya_prefix (f_attrs f)) (n_ns n) (n_local n) = None ->
      vrun (arm_simple x ra i f s n (slots fs c)) (VState d (EStart n attrs m :: EEnd n :: tail) fn) =
      (OOk (slots fs c), VState (S d) (EEnd n :: tail) fn).
    Proof.
      intros i f s n attrs m c d tail fn Hns. unfold arm_simple. rewrite Hns.
      rewrite vrun_bind, vrun_attempt. unfold read_inner_value.
      rewrite (vrun_Next_ev _ _ d (S d)) by reflexivity.
      rewrite vrun_bind, vrun_Peek_ev. reflexivity.
    Qed.

    (** What the loop must do with one child. *)
    Definition step_ok (k : node) : Prop :=
      forall fl c u L tail fn, (1 <= L)%Z -> len k <= fl ->
      let r := vrun (loop (S fl) td fs ln sd (LState (slots fs c) u L)) (VState (S sd) (flat k ++ tail) fn) in
      match kid_given x (decode false) ra fs k with
      | OOk ck => exists fl' L', S fl <= fl' + len k /\ (1 <= L')%Z /\
          r = vrun (loop fl' td fs ln sd (LState (slots fs (c ++ ck)) (fold_left feed (kid_unused ra fs k) u) L'))
                   (VState (S sd) tail fn)
      | OErr e => fst r = OErr e
      | OPanic e => fst r = OPanic e
      | OFuel => fst r = OFuel
      end.

    Lemma kid_step : forall k,
      KidFits ra fs k ->
      len k <= fuel ->
      (forall id, Fits id k -> works rec id k) ->
      step_ok k.
    Proof.
      intros k Hk Hfuel Hsub fl c u L tail fn HL Hfl r.
      assert (Hsimple : forall i f s n attrs m kids,
        field_for ra fs n = Some (i, f) -> base_of (f_ty f) = BSimple s -> n_ns n <> Some "" ->
        (kids = [] \/ exists t, kids = [Txt t]) -> k = Elem n attrs m kids ->
        exists fl' L', S fl <= fl' + len k /\ (1 <= L')%Z /\
          r = vrun (loop fl' td fs ln sd (LState (slots fs (c ++ simple_given x i s kids)) (fold_left feed (kid_unused ra fs k) u) L'))
                   (VState (S sd) tail fn)).
      { intros i f s n attrs m kids Hf Hb Hns Hkids ->. unfold r.
        pose proof (field_namespace_ok _ _ _ _ _ Hf Hns) as Hchk.
        rewrite flat_elem_app, loop_start by assumption. rewrite Hf.
        change (fbase (f_ty f)) with (base_of (f_ty f)). rewrite Hb.
        unfold kid_unused, simple_given. rewrite Hf, Hb. rewrite vrun_bind.
        destruct Hkids as [->|[t ->]].
        - simpl flat_map. simpl app at 1. rewrite arm_simple_empty by assumption.
          cbn [vrun l_slots l_unused l_depth].
          destruct fl as [|fl]; [rewrite len_elem in Hfl; lia|].
          rewrite loop_inner_end. exists fl, (L + 1 - 1)%Z. rewrite len_elem, app_nil_r.
          split; [unfold lens; simpl; lia|]. split; [lia|]. reflexivity.
        - simpl flat_map. simpl app at 1. rewrite arm_simple_txt by assumption.
          destruct (visit_simple x s t) as [v|e] eqn:Hv; cbn [vrun l_slots l_unused l_depth].
          + exists fl, (L + 1)%Z. rewrite len_elem. unfold lens; simpl. split; [lia|]. split; [lia|]. reflexivity.
          + destruct fl as [|fl]; [rewrite len_elem in Hfl; lia|].
            rewrite loop_inner_end. exists fl, (L + 1 - 1)%Z. rewrite len_elem, app_nil_r.
            split; [unfold lens; simpl; lia|]. split; [lia|]. reflexivity. }
      assert (Huser : forall i f id n attrs m kids,
        field_for ra fs n = Some (i, f) -> base_of (f_ty f) = BUser id ->
        Fits id k -> k = Elem n attrs m kids ->
        match kid_given x (decode false) ra fs k with
        | OOk ck => exists fl' L', S fl <= fl' + len k /\ (1 <= L')%Z /\
          r = vrun (loop fl' td fs ln sd (LState (slots fs (c ++ ck)) (fold_left feed (kid_unused ra fs k) u) L'))
                   (VState (S sd) tail fn)
        | OErr e => fst r = OErr e
        | OPanic e => fst r = OPanic e
        | OFuel => fst r = OFuel
        end).
      { intros i f id n attrs m kids Hf Hb Hfit ->. unfold r.
        pose proof (Hsub id Hfit (S sd) fn tail) as Hw. simpl Nat.eqb in Hw.
        unfold kid_given, kid_unused. rewrite Hf, Hb.
        rewrite flat_elem_app, loop_start by assumption. rewrite Hf.
        change (fbase (f_ty f)) with (base_of (f_ty f)). rewrite Hb.
        rewrite vrun_bind. unfold arm_struct.
        replace (Z.eqb L 0) with false by (symmetry; apply Z.eqb_neq; lia).
        rewrite vrun_Peek_ev, vrun_bind. rewrite <- flat_elem_app.
        unfold agrees in Hw.
        destruct (decode false id (Elem n attrs m kids)) as [v|e|e|];
          try (destruct (vrun (rec id) _) as [o' v']; simpl in Hw; subst o'; reflexivity).
        rewrite Hw. cbn [obind].
        assert (Htd : exists td', nth_error E id = Some td').
        { inversion Hfit; subst; eauto. }
        destruct Htd as [td' Htd].
        destruct (left_over_shape id n attrs m kids td' (S sd) Htd) as (e & rr & Hlo & Hcase).
        rewrite Hlo. change ((e :: rr) ++ tail) with (e :: rr ++ tail).
        destruct Hcase as [[-> Hbump]|[-> Hbump]]; rewrite Hlo in Hbump.
        - rewrite (vrun_next_ev _ _ _ _ _ _ _ Hbump). cbn [vrun l_slots l_unused l_depth app tl].
          rewrite slots_put. exists fl, (L + 1)%Z. rewrite len_elem. split; [lia|]. split; [lia|]. reflexivity.
        - rewrite (vrun_next_ev _ _ _ _ _ _ _ Hbump). cbn [vrun l_slots l_unused l_depth app tl].
          rewrite slots_put. destruct fl as [|fl]; [rewrite len_elem in Hfl; lia|].
          rewrite loop_inner_end. exists fl, (L + 1 - 1)%Z. rewrite len_elem.
          split; [lia|]. split; [lia|]. reflexivity. }
      inversion Hk; subst.
      - (* text *)
        unfold r. cbn [kid_given]. change (flat (Txt s) ++ tail) with (EChars s :: tail).
        rewrite loop_text, set_text_slots by assumption.
        exists fl, L. unfold len; simpl. split; [lia|]. split; [assumption|]. reflexivity.
      - unfold kid_given. rewrite H, H0. eapply Hsimple; eauto.
      - eapply Huser; eauto.
      - (* other *)
        unfold kid_given. rewrite H. unfold r.
        rewrite flat_elem_app, loop_start by assumption. rewrite H.
        rewrite (vrun_next_ev _ _ (S sd) (S (S sd))) by reflexivity.
        rewrite write_unused_feed by discriminate. cbn [bind].
        rewrite vrun_bind, skip_element_nodes by (rewrite len_elem in Hfuel; lia).
        cbn [vrun l_slots l_unused l_depth].
        exists fl, (L + 1)%Z. rewrite len_elem, app_nil_r. split; [lia|]. split; [lia|].
        unfold kid_unused. rewrite H. cbn [flat fold_left]. reflexivity.
    Qed.

    Lemma kids_loop : forall kids,
      (forall k, In k kids -> step_ok k) ->
      forall n fl c u L tail fn, (1 <= L)%Z -> lens kids < fl -> n_local n = ln ->
      let r := vrun (loop fl td fs ln sd (LState (slots fs c) u L))
                    (VState (S sd) (flat_map flat kids ++ EEnd n :: tail) fn) in
      match ocollect (kid_given x (decode false) ra fs) kids with
      | OOk ck => exists L',
          r = (OOk (LState (slots fs (c ++ ck)) (feed (fold_left feed (flat_map (kid_unused ra fs) kids) u) (EEnd n)) L'),
               VState (S sd) (EEnd n :: tail) fn)
      | OErr e => fst r = OErr e
      | OPanic e => fst r = OPanic e
      | OFuel => fst r = OFuel
      end.
    Proof.
      induction kids as [|k kids IH]; intros Hstep n fl c u L tail fn HL Hfl Hn r.
      - unfold r. simpl. destruct fl as [|fl]; [lia|].
        rewrite loop_own_end by assumption. rewrite app_nil_r. eauto.
      - unfold r. cbn [flat_map ocollect]. rewrite <- app_assoc.
        rewrite lens_cons in Hfl. destruct fl as [|fl]; [lia|].
        assert (Hk : step_ok k) by (apply Hstep; left; reflexivity).
        specialize (Hk fl c u L (flat_map flat kids ++ EEnd n :: tail) fn HL ltac:(lia)).
        cbv zeta in Hk.
        destruct (kid_given x (decode false) ra fs k) as [ck| | |]; cbn [obind]; try exact Hk.
        destruct Hk as (fl' & L' & Hfl' & HL' & ->).
        specialize (IH (fun k' Hk' => Hstep k' (or_intror Hk')) n fl' (c ++ ck)
                       (fold_left feed (kid_unused ra fs k) u) L' tail fn HL' ltac:(lia) Hn).
        cbv zeta in IH.
        destruct (ocollect (kid_given x (decode false) ra fs) kids) as [cks| | |]; cbn [obind]; try exact IH.
        destruct IH as [L2 ->]. exists L2. rewrite fold_left_app, app_assoc. reflexivity.
    Qed.

    (** The start tag of the struct's own element. *)
    Lemma loop_root : forall fl n attrs m ss u d tail fn,
      (elabel n = root_label td \/ field_for ra fs n = None) ->
      vrun (loop (S fl) td fs ln sd (LState ss u 0)) (VState d (EStart n attrs m :: tail) fn) =
      match vrun (load_attrs x E rec fs 0 attrs ss) (VState (S d) tail fn) with
      | (OOk ss', v) => vrun (loop fl td fs ln sd (LState ss' (feed u (EStart n attrs m)) 1)) v
      | (OErr e, v) => (OErr e, v)
      | (OPanic e, v) => (OPanic e, v)
      | (OFuel, v) => (OFuel, v)
      end.
    Proof.
      intros fl n attrs m ss u d tail fn Hroot.
      cbn [struct_loop]. rewrite vrun_peek_ev. cbn [l_depth l_slots l_unused].
      rewrite find_field_for. simpl (Z.eqb 0 0). cbn [andb].
      assert (Hif : forall (p q : prog lstate),
        (if (String.eqb (n_local n) (de_root td) && String.eqb (opt_default "" (n_ns n)) (de_root_ns td))%bool
         then p else match field_for ra fs n with
                     | Some (i, f) => let* ss1 :=
                         (match fbase (f_ty f) with
                          | BUser id => arm_struct rec i id 0 ss
                          | BSimple s => arm_simple x ra i f s n ss
                          end) in Ret (LState ss1 u 0)
                     | None => q
                     end) = p \/
        (if (String.eqb (n_local n) (de_root td) && String.eqb (opt_default "" (n_ns n)) (de_root_ns td))%bool
         then p else match field_for ra fs n with
                     | Some (i, f) => let* ss1 :=
                         (match fbase (f_ty f) with
                          | BUser id => arm_struct rec i id 0 ss
                          | BSimple s => arm_simple x ra i f s n ss
                          end) in Ret (LState ss1 u 0)
                     | None => q
                     end) = q).
      { intros p q. destruct Hroot as [Hl|Hn].
        - left. unfold elabel, root_label in Hl. inversion Hl as [[H1 H2]].
          change (de_root td) with (match ya_rename (t_attrs td) with Some r => r | None => t_name td end).
          rewrite <- H2, String.eqb_refl.
          change (opt_default "" (n_ns n)) with (match n_ns n with Some u0 => u0 | None => "" end).
          rewrite H1.
          change (de_root_ns td) with (uri_of (ya_namespaces (t_attrs td)) (ya_prefix (t_attrs td))).
          rewrite String.eqb_refl. reflexivity.
        - rewrite Hn. destruct (_ && _)%bool; [left|right]; reflexivity. }
      rewrite vrun_bind.
      match goal with |- context [vrun (if ?b then ?p else match _ with Some _ => _ | None => ?q end) _] =>
        assert (Hv : vrun p (VState d (EStart n attrs m :: tail) fn) = (OOk (LState ss (feed u (EStart n attrs m)) 0), VState (S d) tail fn)
                  /\ vrun q (VState d (EStart n attrs m :: tail) fn) = (OOk (LState ss (feed u (EStart n attrs m)) 0), VState (S d) tail fn));
        [|destruct (Hif p q) as [-> | ->]] end.
      - split; rewrite (vrun_next_ev _ _ d (S d)) by reflexivity;
        rewrite write_unused_feed by discriminate; reflexivity.
      - rewrite (proj1 Hv). rewrite vrun_bind. cbn [l_slots l_unused l_depth].
        change (Z.eqb 0 0) with true. cbv iota.
        destruct (vrun (load_attrs x E rec fs 0 attrs ss) (VState (S d) tail fn)) as [[| | |] ?]; reflexivity.
      - rewrite (proj2 Hv). rewrite vrun_bind. cbn [l_slots l_unused l_depth].
        change (Z.eqb 0 0) with true. cbv iota.
        destruct (vrun (load_attrs x E rec fs 0 attrs ss) (VState (S d) tail fn)) as [[| | |] ?]; reflexivity.
    Qed.
  End Struct.

  (** ** Contributions never go to flattened fields *)
  Lemma ocollect_in : forall A B (g : A -> outcome (list B)) l r b,
    ocollect g l = OOk r -> In b r -> exists a u, In a l /\ g a = OOk u /\ In b u.
  Proof.
    intros A B g l; induction l as [|a l IH]; intros r b H Hin.
    - simpl in H. inversion H; subst. destruct Hin.
    - simpl in H. destruct (g a) as [u| | |] eqn:Hg; try discriminate. simpl in H.
      destruct (ocollect g l) as [w| | |] eqn:Hw; try discriminate. simpl in H.
      inversion H; subst. apply in_app_or in Hin. destruct Hin as [Hin|Hin].
      + exists a, u. split; [left; reflexivity|]. auto.
      + destruct (IH w b eq_refl Hin) as (a' & u' & H1 & H2 & H3).
        exists a', u'. split; [right; assumption|]. auto.
  Qed.

  Lemma attr_given_index : forall i f a u p,
    attr_given x attr_value i f a = OOk u -> In p u -> fst p = i.
  Proof.
    intros i f a u p H Hin. unfold attr_given in H.
    destruct (String.eqb _ _); [|inversion H; subst; destruct Hin].
    assert (Hone : forall b s u, obind (attr_item x attr_value b s) (fun v => OOk [(i, v)]) = OOk u -> In p u -> fst p = i).
    { intros b s u' Hu Hp. destruct (attr_item x attr_value b s); try discriminate.
      inversion Hu; subst. destruct Hp as [<-|[]]; reflexivity. }
    destruct (f_ty f); eauto.
    destruct (ocollect_in _ _ _ _ _ _ H Hin) as (s & u' & _ & Hu & Hp). eauto.
  Qed.

  Lemma attrs_given_index : forall fs attrs ca p,
    attrs_given x attr_value fs attrs = OOk ca -> In p ca ->
    exists f, nth_error fs (fst p) = Some f /\ ya_attribute (f_attrs f) = true.
  Proof.
    intros fs attrs ca p H Hin. unfold attrs_given in H.
    destruct (ocollect_in _ _ _ _ _ _ H Hin) as ([i f] & u & Hi & Hu & Hp).
    cbn [fst snd] in Hu. destruct (ya_attribute (f_attrs f)) eqn:Ha; [|inversion Hu; subst; destruct Hp].
    destruct (ocollect_in _ _ _ _ _ _ Hu Hp) as (a & u' & _ & Hu' & Hp').
    rewrite (attr_given_index _ _ _ _ _ Hu' Hp'). exists f. split; [|assumption].
    apply numbered_in; assumption.
  Qed.

  Lemma text_fields_index : forall fs i, In i (text_fields fs) ->
    exists f s, nth_error fs i = Some f /\ base_of (f_ty f) = BSimple s.
  Proof.
    intros fs i H. unfold text_fields in H. apply in_map_iff in H.
    destruct H as ([j f] & <- & H). apply filter_In in H. destruct H as [H1 H2].
    cbn [fst snd] in *. apply andb_true_iff in H2. destruct H2 as [_ H2].
    apply numbered_in in H1. exists f.
    destruct (f_ty f) as [[]|[]| |]; try discriminate; eexists; (split; [eassumption|reflexivity]).
  Qed.

  Lemma kids_given_index : forall sub ra fs kids ck p,
    ocollect (kid_given x sub ra fs) kids = OOk ck -> In p ck ->
    exists f, nth_error fs (fst p) = Some f /\
      ((exists s, base_of (f_ty f) = BSimple s) \/ ya_flatten (f_attrs f) = false).
  Proof.
    intros sub ra fs kids ck p H Hin.
    destruct (ocollect_in _ _ _ _ _ _ H Hin) as (k & u & _ & Hu & Hp).
    unfold kid_given in Hu. destruct k as [n a m ks|s].
    - destruct (field_for ra fs n) as [[i f]|] eqn:Hf; [|inversion Hu; subst; destruct Hp].
      apply field_for_spec in Hf. destruct Hf as (H1 & _ & H3 & _).
      exists f. assert (fst p = i) as ->; [|split; [assumption|right; assumption]].
      destruct (base_of (f_ty f)).
      + inversion Hu; subst. unfold simple_given in Hp.
        destruct ks as [|[|] []]; try destruct Hp.
        destruct (visit_simple x s s0); [|destruct Hp]. destruct Hp as [<-|[]]; reflexivity.
      + destruct (sub id (Elem n a m ks)); try discriminate.
        inversion Hu; subst. destruct Hp as [<-|[]]; reflexivity.
    - inversion Hu; subst. apply in_map_iff in Hp. destruct Hp as (i & <- & Hi).
      apply text_fields_index in Hi. destruct Hi as (f & s' & H1 & H2). exists f. cbn [fst].
      split; [assumption|]. left; eauto.
  Qed.

  (** ** Flattened fields *)
  Lemma visit_flatten_given : forall fuel all rest fs i c v,
    len rest + 4 + K < fuel ->
    (forall j f, nth_error fs j = Some f -> nth_error all (i + j) = Some f) ->
    (forall f, In f fs -> flat_field f = true -> exists id',
        (f_ty f = TBase (BUser id') \/ f_ty f = TOpt (BUser id')) /\ flat_fine id' rest) ->
    (forall j f, i <= j -> nth_error all j = Some f -> flat_field f = true -> given j c = []) ->
    vrun (visit_flatten (De.de x E fuel) fs i (emit_text default_econf (wflat rest)) (slots all c)) v =
    (omap (fun cf => slots all (c ++ cf))
       (ocollect (flat_given flat_value rest) (combine (seq i (List.length fs)) fs)), v).
  Proof.
    intros fuel all rest fs; induction fs as [|f fs IH]; intros i c v Hfuel Hall Hfine Hun.
    - simpl. rewrite app_nil_r. reflexivity.
    - rewrite combine_seq_cons. cbn [visit_flatten ocollect]. rewrite vrun_bind.
      assert (Hf : nth_error all i = Some f).
      { rewrite <- (Nat.add_0_r i). apply Hall. reflexivity. }
      assert (Hrest : forall c', (forall j, i < j -> given j c' = given j c) ->
        vrun (visit_flatten (De.de x E fuel) fs (S i) (emit_text default_econf (wflat rest)) (slots all c')) v =
        (omap (fun cf => slots all (c' ++ cf))
          (ocollect (flat_given flat_value rest) (combine (seq (S i) (List.length fs)) fs)), v)).
      { intros c' Hc'. apply IH; auto.
        - intros j g Hg. rewrite <- (Hall (S j) g Hg). f_equal. lia.
        - intros g Hg. apply Hfine. right; assumption.
        - intros j g Hj Hg Hfg. rewrite Hc' by lia. apply (Hun j g); auto; lia. }
      assert (Hput : forall w j, i < j -> given j (c ++ [(i, w)]) = given j c).
      { intros w j Hj. rewrite given_app, given_one.
        replace (Nat.eqb i j) with false by (symmetry; apply Nat.eqb_neq; lia). apply app_nil_r. }
      unfold flat_given at 1. fold (flat_field f).
      change (negb (ya_attribute (f_attrs f)) && ya_flatten (f_attrs f))%bool with (flat_field f).
      destruct (flat_field f) eqn:Hff.
      2:{ cbn [vrun obind]. rewrite Hrest by reflexivity.
          destruct (ocollect _ _); reflexivity. }
      destruct (Hfine f (or_introl eq_refl) Hff) as (id & Hty & Hff').
      assert (Hin : from_str_in (De.de x E fuel) id (emit_text default_econf (wflat rest)) = oprog (flat_value id rest)).
      { unfold from_str_in. pose proof (Hflat fuel id rest Hff' Hfuel) as Heq.
        unfold from_str, from_events in Heq. rewrite Heq. destruct (flat_value id rest); reflexivity. }
      destruct Hty as [Hty|Hty]; rewrite Hty; rewrite Hin.
      + destruct (flat_value id rest) as [w| | |]; cbn [oprog bind vrun obind]; try reflexivity.
        rewrite (slots_set all i f) by (try assumption; rewrite Hty; discriminate).
        rewrite Hrest by auto. unfold omap.
        destruct (ocollect _ _); cbn [obind]; try reflexivity. rewrite <- app_assoc. reflexivity.
      + rewrite vrun_bind, vrun_attempt.
        destruct (flat_value id rest) as [w| | |]; cbn [oprog bind vrun obind]; try reflexivity.
        * rewrite (slots_set all i f) by (try assumption; rewrite Hty; discriminate).
          rewrite Hrest by auto. unfold omap.
          destruct (ocollect _ _); cbn [obind]; try reflexivity. rewrite <- app_assoc. reflexivity.
        * rewrite (slots_set_none all i f) by
            (first [assumption | rewrite Hty; discriminate | apply (Hun i f); auto]).
          rewrite Hrest by auto. destruct (ocollect _ _); reflexivity.
  Qed.

  Lemma flat_given_none : forall rest fs i, (forall f, In f fs -> flat_field f = false) ->
    ocollect (flat_given flat_value rest) (combine (seq i (List.length fs)) fs) = OOk [].
  Proof.
    intros rest fs; induction fs as [|f fs IH]; intros i H; [reflexivity|].
    rewrite combine_seq_cons. cbn [ocollect]. unfold flat_given at 1. fold (flat_field f).
    change (negb (ya_attribute (f_attrs f)) && ya_flatten (f_attrs f))%bool with (flat_field f).
    rewrite (H f (or_introl eq_refl)). cbn [obind]. rewrite IH; [reflexivity|].
    intros; apply H; right; assumption.
  Qed.

  Lemma tidy_unused : forall ra fs kids, (forall k, In k kids -> Tidy x E ra fs k) ->
    flat_map (kid_unused ra fs) kids = flat_map flat (filter (is_left ra fs) kids).
  Proof.
    intros ra fs kids; induction kids as [|k kids IH]; intros H; [reflexivity|].
    cbn [flat_map filter]. rewrite IH by (intros; apply H; right; assumption).
    specialize (H k (or_introl eq_refl)). unfold is_left at 2, kid_unused.
    destruct k as [n a m ks|s]; [|reflexivity].
    destruct (field_for ra fs n) as [[i f]|] eqn:Hf; [|reflexivity].
    cbn [Tidy] in H. specialize (H i f Hf). destruct (base_of (f_ty f)) as [s|id].
    - destruct H as (t & w & -> & ->). reflexivity.
    - destruct H as (td & H1 & H2). unfold left_over. rewrite H1.
      destruct (t_body td) as [fs'|vs dflt|pk]; [reflexivity| |].
      + destruct (ya_tag (t_attrs td)) as [tg|].
        * destruct (find _ a) as [b|] eqn:Hfd; [|reflexivity]. apply find_some in Hfd. destruct Hfd as [Hin Heq].
          apply String.eqb_eq in Heq. destruct (variant_for vs (at_value b)) as [[j []]|] eqn:Hv; try reflexivity.
          destruct (H2 b j Hin Heq Hv).
        * destruct ks as [|[|s] [|]]; try reflexivity.
          destruct (variant_for vs s) as [[j []]|] eqn:Hv; try reflexivity. destruct (H2 s j eq_refl Hv).
      + destruct ks as [|[|s] [|]]; try reflexivity. destruct (H2 s eq_refl).
  Qed.

  Lemma feed_off : forall l, fold_left feed l UOff = UOff.
  Proof. induction l; simpl; auto. Qed.

  Lemma lens_filter : forall (g : node -> bool) ks, lens (filter g ks) <= lens ks.
  Proof.
    intros g ks; induction ks as [|k ks IH]; [apply le_n|]. simpl filter.
    destruct (g k); rewrite ?lens_cons; lia.
  Qed.

  Lemma struct_works : forall fuel id td fs n attrs m kids,
    nth_error E id = Some td -> t_body td = DStruct fs ->
    (elabel n = root_label td \/ field_for (t_attrs td) fs n = None) ->
    attrs_fine attr_fine fs attrs ->
    (forall k, In k kids -> KidFits (t_attrs td) fs k) ->
    (flattens fs = true ->
       (forall f, In f fs -> flat_field f = true ->
          exists id', (f_ty f = TBase (BUser id') \/ f_ty f = TOpt (BUser id')) /\
            flat_fine id' (Elem n attrs m (filter (is_left (t_attrs td) fs) kids))) /\
       (forall k, In k kids -> Tidy x E (t_attrs td) fs k)) ->
    (forall k id', In k kids -> Fits id' k -> works (De.de x E fuel) id' k) ->
    len (Elem n attrs m kids) + 4 + K < fuel ->
    works (De.de x E (S fuel)) id (Elem n attrs m kids).
  Proof.
    intros fuel id td fs n attrs m kids Htd Hbody Hroot Hattrs Hkids Hfl Hsub Hfuel d fn tail.
    rewrite len_elem in Hfuel.
    cbn [De.de]. unfold de_body. rewrite Htd, Hbody. unfold de_struct.
    cbn [SpecTree.decode]. rewrite Htd, Hbody.
    unfold left_over. rewrite Htd, Hbody. cbn [left_depth app].
    rewrite flat_elem_app, vrun_peek_ev, vrun_Depth, namespace_check_bad.
    destruct (if Nat.eqb d 0 then bad_namespace (t_attrs td) n else None); [reflexivity|].
    rewrite slots_init. destruct fuel as [|fl]; [lia|].
    rewrite vrun_bind, loop_root by assumption.
    rewrite (load_attrs_given (S fl) ltac:(lia) fs attrs Hattrs fs 0 []) by auto.
    unfold attrs_given, numbered.
    destruct (ocollect _ (combine (seq 0 (List.length fs)) fs)) as [ca| | |] eqn:Hca;
      cbn [omap obind]; try reflexivity.
    assert (Hstep : forall k, In k kids -> step_ok (De.de x E (S fl)) (S fl) td fs (n_local n) d k).
    { intros k Hk. apply kid_step; auto. pose proof (len_in _ _ Hk). lia. }
    pose proof (kids_loop (De.de x E (S fl)) (S fl) td fs (n_local n) d kids Hstep n fl ([] ++ ca)
      (feed (init_unused fs) (EStart n attrs m)) 1%Z tail fn ltac:(lia) ltac:(lia) eq_refl) as Hloop.
    cbv zeta in Hloop.
    destruct (ocollect (kid_given x (decode false) (t_attrs td) fs) kids) as [ck| | |] eqn:Hck; cbn [obind].
    2-4: (destruct (vrun (struct_loop _ _ _ _ _ _ _ _ _ _) _) as [o' v']; cbn [fst] in Hloop; subst o'; reflexivity).
    destruct Hloop as [L' ->]. cbn [l_unused l_slots]. rewrite vrun_bind.
    assert (Hvis : vrun (visit_unused (De.de x E (S fl)) fs
         (feed (fold_left feed (flat_map (kid_unused (t_attrs td) fs) kids)
                  (feed (init_unused fs) (EStart n attrs m))) (EEnd n)) (slots fs (([] ++ ca) ++ ck)))
         (VState (S d) (EEnd n :: tail) fn) =
       (omap (fun cf => slots fs (ca ++ ck ++ cf))
          (ocollect (flat_given flat_value (Elem n attrs m (filter (is_left (t_attrs td) fs) kids)))
             (combine (seq 0 (List.length fs)) fs)), VState (S d) (EEnd n :: tail) fn)).
    { unfold init_unused.
      change (has_flatten fs) with (flattens fs).
      destruct (flattens fs) eqn:Hflt.
      - destruct (Hfl eq_refl) as [Hff Htidy]. rewrite (tidy_unused _ _ _ Htidy).
        replace (feed (fold_left feed (flat_map flat (filter (is_left (t_attrs td) fs) kids))
                  (feed (ULive [] []) (EStart n attrs m))) (EEnd n))
          with (fold_left feed (flat (Elem n attrs m (filter (is_left (t_attrs td) fs) kids))) (ULive [] [])).
        2:{ cbn [flat fold_left]. rewrite fold_left_app. reflexivity. }
        rewrite feed_flat. cbn [visit_unused app].
        rewrite visit_flatten_given.
        + unfold omap, numbered. destruct (ocollect (flat_given _ _) _); cbn [obind]; try reflexivity.
          rewrite <- app_assoc. reflexivity.
        + rewrite len_elem. pose proof (lens_filter (is_left (t_attrs td) fs) kids). lia.
        + intros j f Hj. exact Hj.
        + exact Hff.
        + intros j f _ Hj Hjf. rewrite given_app.
          destruct (Hff f (nth_error_In _ _ Hj) Hjf) as (id' & Hty & _).
          unfold flat_field in Hjf. apply andb_true_iff in Hjf. destruct Hjf as [Hj1 Hj2].
          apply negb_true_iff in Hj1.
          rewrite !given_none; [reflexivity| |].
          * intros p Hp Heq. destruct (kids_given_index _ _ _ _ _ _ Hck Hp) as (g & Hg & Hcase).
            rewrite Heq, Hj in Hg. inversion Hg; subst g. destruct Hcase as [[s Hs]|Hs]; [|congruence].
            destruct Hty as [Hty|Hty]; rewrite Hty in Hs; discriminate.
          * intros p Hp Heq. destruct (attrs_given_index fs attrs ca p Hca Hp) as (g & Hg & Hga).
            rewrite Heq, Hj in Hg. inversion Hg; subst g. congruence.
      - change (feed UOff (EStart n attrs m)) with UOff. rewrite feed_off. cbn [feed visit_unused vrun].
        rewrite flat_given_none; [cbn [omap obind app]; rewrite app_nil_r; reflexivity|].
        intros f Hf. unfold flattens in Hflt. destruct (flat_field f) eqn:Hff; [|reflexivity].
        exfalso. rewrite (proj2 (existsb_exists flat_field fs)) in Hflt; [discriminate|eauto]. }
    rewrite Hvis. unfold omap.
    destruct (ocollect (flat_given _ _) _) as [cf| | |]; cbn [obind]; try reflexivity.
    rewrite build_slots. destruct (fields_result x (t_name td) 0 fs (ca ++ ck ++ cf)); reflexivity.
  Qed.

  (** ** Enums *)
  Section Enum.
    Variable rec : nat -> prog value.
    Variable td : typedef.
    Variable vs : list variant.
    Variable ln : string.
    Variable sd : nat.
    Hypothesis Htag : ya_tag (t_attrs td) = None.
    Notation eloop := (enum_loop x rec).

    (** The next event is there, and is not a text naming a variant. *)
    Definition quiet (l : list event) : Prop :=
      match l with
      | [] => False
      | EChars c :: _ => variant_for vs c = None
      | _ :: _ => True
      end.

    Lemma quiet_next : forall fl cur d tail fn, quiet tail ->
      vrun (let* e2 := peek_ in
            match e2 with
            | EChars content =>
                let* r2 :=
                  (match find_variant vs 0 content with
                   | Some (i, b) => enum_arm x rec i b cur
                   | None => Ret (cur, false)
                   end) in
                let '(cur2, brk2) := r2 in
                if brk2 then Ret cur2 else eloop fl td vs ln sd cur2
            | _ => eloop fl td vs ln sd cur
            end) (VState d tail fn) =
      vrun (eloop fl td vs ln sd cur) (VState d tail fn).
    Proof.
      intros fl cur d [|e tail] fn Hq; [destruct Hq|]. rewrite vrun_peek_ev.
      destruct e; try reflexivity. cbn [quiet] in Hq. rewrite find_variant_for, Hq. reflexivity.
    Qed.

    Lemma eloop_txt : forall fl cur s d tail fn,
      vrun (eloop (S fl) td vs ln sd cur) (VState d (EChars s :: tail) fn) =
      vrun (eloop fl td vs ln sd cur) (VState d tail fn).
    Proof. reflexivity. Qed.

    Lemma eloop_end : forall fl cur n d tail fn, S sd < d ->
      vrun (eloop (S fl) td vs ln sd cur) (VState d (EEnd n :: tail) fn) =
      vrun (eloop fl td vs ln sd cur) (VState (pred d) tail fn).
    Proof.
      intros fl cur n d tail fn Hd. cbn [enum_loop]. rewrite vrun_peek_ev, vrun_Depth.
      replace (Nat.eqb d (S sd)) with false by (symmetry; apply Nat.eqb_neq; lia).
      rewrite andb_false_r. destruct d as [|d]; [lia|].
      rewrite (vrun_Next_ev _ _ (S d) d) by reflexivity. reflexivity.
    Qed.

    Lemma eloop_own_end : forall fl cur n tail fn, n_local n = ln ->
      vrun (eloop (S fl) td vs ln sd cur) (VState (S sd) (EEnd n :: tail) fn) =
      (OOk cur, VState (S sd) (EEnd n :: tail) fn).
    Proof.
      intros fl cur n tail fn <-. cbn [enum_loop]. rewrite vrun_peek_ev, vrun_Depth.
      rewrite String.eqb_refl, Nat.eqb_refl. reflexivity.
    Qed.

    Lemma eloop_other : forall fl cur n a m d tail fn,
      variant_for vs (n_local n) = None -> quiet tail ->
      vrun (eloop (S fl) td vs ln sd cur) (VState d (EStart n a m :: tail) fn) =
      vrun (eloop fl td vs ln sd cur) (VState (S d) tail fn).
    Proof.
      intros fl cur n a m d tail fn Hv Hq. cbn [enum_loop]. rewrite vrun_peek_ev, Htag.
      cbn [enum_element_name of_res bind]. rewrite find_variant_for, Hv. cbn [bind].
      rewrite (vrun_Next_ev _ _ d (S d)) by reflexivity. apply quiet_next; assumption.
    Qed.

    Lemma quiet_kids : forall ks r, (forall k, In k ks -> match k with Txt s => variant_for vs s = None | _ => True end) ->
      quiet r -> quiet (flat_map flat ks ++ r).
    Proof.
      intros [|[n a m ks'|s] ks] r H Hr; [exact Hr|exact I|].
      specialize (H (Txt s) (or_introl eq_refl)). exact H.
    Qed.

    Lemma alien_loop : forall k, alien vs k -> forall fl cur d tail fn, S sd <= d -> quiet tail ->
      vrun (eloop (len k + fl) td vs ln sd cur) (VState d (flat k ++ tail) fn) =
      vrun (eloop fl td vs ln sd cur) (VState d tail fn).
    Proof.
      induction k as [s|n a m ks IH] using node_ind'; intros Ha fl cur d tail fn Hd Hq.
      - apply eloop_txt.
      - inversion Ha as [|? ? ? ? Hn Hks]; subst. rewrite flat_elem_app, len_elem.
        replace (lens ks + 2 + fl) with (S (lens ks + S fl)) by lia.
        assert (Htxt : forall k, In k ks -> match k with Txt s => variant_for vs s = None | _ => True end).
        { intros k Hk. apply Hks in Hk. destruct Hk; [assumption|exact I]. }
        rewrite eloop_other; [|assumption|apply quiet_kids; [assumption|exact I]].
        clear Ha Hn.
        assert (Hl : forall q, vrun (eloop (lens ks + q) td vs ln sd cur) (VState (S d) (flat_map flat ks ++ EEnd n :: tail) fn) =
                     vrun (eloop q td vs ln sd cur) (VState (S d) (EEnd n :: tail) fn)).
        { intros q. induction ks as [|k ks IHks]; [reflexivity|].
          rewrite lens_cons. cbn [flat_map]. rewrite <- app_assoc, <- Nat.add_assoc.
          rewrite (IH k (or_introl eq_refl)).
          - apply IHks.
            + intros k' Hk'. apply IH. right; assumption.
            + intros k' Hk'. apply Hks. right; assumption.
            + intros k' Hk'. apply Htxt. right; assumption.
          - apply Hks. left; reflexivity.
          - lia.
          - apply quiet_kids; [|exact I]. intros k' Hk'. apply Htxt. right; assumption. }
        rewrite Hl, eloop_end by lia. reflexivity.
    Qed.

    Lemma set_payload_store : forall t i w cur, set_payload t i w cur = oprog (store t i w cur).
    Proof.
      intros [| | |] i w cur; try reflexivity.
      destruct cur as [[| | | | | | | |j l]|]; try reflexivity.
      destruct l as [|a [|]]; try reflexivity; destruct a; try reflexivity.
      cbn [set_payload store]. destruct (Nat.eqb i j); reflexivity.
    Qed.

    Lemma read_payload_spec : forall s n a m kids d tail fn,
      (kids = [] \/ exists u, kids = [Txt u]) ->
      let r := vrun (read_payload x s) (VState d (flat (Elem n a m kids) ++ tail) fn) in
      match parse_simple x s (match kids with [Txt u] => u | _ => "" end) with
      | Ok w => r = (OOk (Ok w), VState d tail fn)
      | Er e => fst r = OPanic ("called `Result::unwrap()` on an `Err` value: " +++ e)
      end.
    Proof.
      intros s n a m kids d tail fn Hk r. unfold r, read_payload. rewrite vrun_attempt.
      unfold read_inner_value. rewrite flat_elem_app, (vrun_Next_ev _ _ d (S d)) by reflexivity.
      rewrite vrun_bind. destruct Hk as [->|[u ->]].
      - cbn [flat_map app]. rewrite vrun_peek_ev. unfold visit_unwrap.
        destruct (parse_simple x s "") as [w|e]; [|reflexivity].
        cbn [vrun]. unfold expect_end_element. rewrite vrun_bind, (vrun_next_ev _ _ (S d) d) by reflexivity.
        rewrite name_eqb_refl. reflexivity.
      - cbn [flat_map flat app]. rewrite vrun_peek_ev, (vrun_Next_ev _ _ (S d) (S d)) by reflexivity.
        unfold visit_unwrap. destruct (parse_simple x s u) as [w|e]; [|reflexivity].
        cbn [vrun]. unfold expect_end_element. rewrite vrun_bind, (vrun_next_ev _ _ (S d) d) by reflexivity.
        rewrite name_eqb_refl. reflexivity.
    Qed.

    Definition estep_ok (k : node) : Prop :=
      forall fl cur tail fn, quiet tail -> len k <= fl ->
      let r := vrun (eloop (S fl) td vs ln sd cur) (VState (S sd) (flat k ++ tail) fn) in
      match payload_given x (decode false) vs cur k with
      | OOk cur' => exists fl', S fl <= fl' + len k /\
          r = vrun (eloop fl' td vs ln sd cur') (VState (S sd) tail fn)
      | OErr e => fst r = OErr e
      | OPanic e => fst r = OPanic e
      | OFuel => fst r = OFuel
      end.

    Lemma payload_step : forall k, PayloadFits vs k ->
      (forall id, Fits id k -> works rec id k) -> estep_ok k.
    Proof.
      intros k Hk Hsub fl cur tail fn Hq Hfl r. inversion Hk as
        [vs' n a m kids i flg t s Hv Hb Hkids | vs' n a m kids i flg t id Hv Hb Hfit | vs' k' Hal]; subst.
      - unfold payload_given. rewrite Hv, Hb. unfold r.
        cbn [enum_loop].
        change (flat (Elem n a m kids) ++ tail) with (EStart n a m :: (flat_map flat kids ++ [EEnd n]) ++ tail).
        rewrite vrun_peek_ev, Htag. cbn [enum_element_name of_res bind].
        rewrite find_variant_for, Hv. unfold enum_arm.
        change (fbase t) with (base_of t). rewrite Hb.
        change (EStart n a m :: (flat_map flat kids ++ [EEnd n]) ++ tail) with (flat (Elem n a m kids) ++ tail).
        rewrite !vrun_bind.
        pose proof (read_payload_spec s n a m kids (S sd) tail fn Hkids) as Hr. cbv zeta in Hr.
        destruct (parse_simple x s _) as [w|e].
        + rewrite Hr. rewrite set_payload_store, vrun_oprog.
          destruct (store t i w cur) as [c'| | |]; cbn [vrun]; try reflexivity.
          rewrite quiet_next by assumption. exists fl. split; [|reflexivity].
          rewrite len_elem; lia.
        + destruct (vrun (read_payload x s) _) as [o' v']; cbn [fst] in Hr; subst o'. reflexivity.
      - unfold payload_given. rewrite Hv, Hb. unfold r.
        pose proof (Hsub id Hfit (S sd) fn tail) as Hw. simpl Nat.eqb in Hw. unfold agrees in Hw.
        assert (Htd : exists td', nth_error E id = Some td').
        { inversion Hfit; subst; eauto. }
        destruct Htd as [td' Htd].
        cbn [enum_loop].
        change (flat (Elem n a m kids) ++ tail) with (EStart n a m :: (flat_map flat kids ++ [EEnd n]) ++ tail).
        rewrite vrun_peek_ev, Htag. cbn [enum_element_name of_res bind].
        rewrite find_variant_for, Hv. unfold enum_arm.
        change (fbase t) with (base_of t). rewrite Hb.
        change (EStart n a m :: (flat_map flat kids ++ [EEnd n]) ++ tail) with (flat (Elem n a m kids) ++ tail).
        rewrite !vrun_bind.
        destruct (decode false id (Elem n a m kids)) as [w| | |]; cbn [obind];
          try (destruct (vrun (rec id) _) as [o' v']; simpl in Hw; subst o'; reflexivity).
        rewrite Hw, set_payload_store, vrun_oprog.
        destruct (store t i w cur) as [c'| | |]; try reflexivity.
        destruct (left_over_shape id n a m kids td' (S sd) Htd) as (e & rr & Hlo & Hcase).
        rewrite Hlo. change ((e :: rr) ++ tail) with (e :: rr ++ tail).
        destruct Hcase as [[-> Hbump]|[-> Hbump]]; rewrite Hlo in Hbump;
          rewrite (vrun_Next_ev _ _ _ _ _ _ _ Hbump); cbn [vrun app].
        + rewrite quiet_next by assumption. exists fl. split; [rewrite len_elem; lia|reflexivity].
        + rewrite quiet_next by exact I. destruct fl as [|fl]; [rewrite len_elem in Hfl; lia|].
          rewrite eloop_end by lia. exists fl. split; [rewrite len_elem; lia|reflexivity].
      - assert (payload_given x (decode false) vs cur k = OOk cur) as ->.
        { destruct Hal as [|n a m ks Hn _]; [reflexivity|]. unfold payload_given. rewrite Hn. reflexivity. }
        exists (S fl - len k). split; [lia|]. unfold r.
        replace (S fl) with (len k + (S fl - len k)) at 1 by lia.
        apply alien_loop; auto.
    Qed.

    Lemma payload_txt : forall k, PayloadFits vs k -> match k with Txt s => variant_for vs s = None | _ => True end.
    Proof. intros k H. inversion H as [| |vs' k' Hal]; subst; [exact I|exact I|]. destruct Hal; auto. Qed.

    Lemma payloads_loop : forall kids,
      (forall k, In k kids -> estep_ok k) ->
      (forall k, In k kids -> match k with Txt s => variant_for vs s = None | _ => True end) ->
      forall n fl cur tail fn, lens kids < fl -> n_local n = ln ->
      agrees (ofold (payload_given x (decode false) vs) kids cur)
             (vrun (eloop fl td vs ln sd cur) (VState (S sd) (flat_map flat kids ++ EEnd n :: tail) fn))
             (VState (S sd) (EEnd n :: tail) fn).
    Proof.
      induction kids as [|k kids IH]; intros Hstep Htxt n fl cur tail fn Hfl Hn.
      - cbn [ofold flat_map app agrees]. destruct fl as [|fl]; [lia|]. apply eloop_own_end. assumption.
      - cbn [flat_map ofold]. rewrite <- app_assoc. rewrite lens_cons in Hfl.
        destruct fl as [|fl]; [lia|].
        pose proof (Hstep k (or_introl eq_refl) fl cur (flat_map flat kids ++ EEnd n :: tail) fn) as Hk.
        cbv zeta in Hk.
        assert (Hq : quiet (flat_map flat kids ++ EEnd n :: tail)).
        { apply quiet_kids; [|exact I]. intros k' Hk'. apply Htxt. right; assumption. }
        specialize (Hk Hq ltac:(lia)).
        destruct (payload_given x (decode false) vs cur k) as [cur'| | |]; cbn [obind agrees]; try exact Hk.
        destruct Hk as (fl' & Hfl' & ->). apply IH; try assumption; try lia.
        + intros k' Hk'. apply Hstep. right; assumption.
        + intros k' Hk'. apply Htxt. right; assumption.
    Qed.
  End Enum.

  Lemma agrees_bind : forall A B (o : outcome A) (p : prog A) (g : A -> B) v s,
    agrees o (vrun p v) s ->
    agrees (obind o (fun a => OOk (g a))) (vrun (let* a := p in Ret (g a)) v) s.
  Proof.
    intros A B o p g v s H. rewrite vrun_bind. unfold agrees in *.
    destruct o; [rewrite H; reflexivity| | |];
    destruct (vrun p v) as [o' v']; cbn [fst] in H; subst o'; reflexivity.
  Qed.

  Lemma payload_works : forall fuel id td vs dflt n attrs m kids,
    nth_error E id = Some td -> t_body td = DEnum vs dflt -> ya_tag (t_attrs td) = None ->
    variant_for vs (n_local n) = None ->
    (forall s, kids <> [Txt s]) ->
    (forall k, In k kids -> PayloadFits vs k) ->
    (forall k id', In k kids -> Fits id' k -> works (De.de x E fuel) id' k) ->
    len (Elem n attrs m kids) < fuel ->
    works (De.de x E (S fuel)) id (Elem n attrs m kids).
  Proof.
    intros fuel id td vs dflt n attrs m kids Htd Hbody Htag Hn Hns Hkids Hsub Hfuel d fn tail.
    rewrite len_elem in Hfuel.
    cbn [De.de]. unfold de_body. rewrite Htd, Hbody. unfold de_enum.
    cbn [SpecTree.decode]. rewrite Htd, Hbody, Htag.
    unfold left_over. rewrite Htd, Hbody, Htag.
    rewrite !(not_single_txt _ kids _ _ Hns). cbn [left_depth app].
    rewrite flat_elem_app, vrun_peek_ev, vrun_Depth, namespace_check_bad.
    destruct (bad_namespace (t_attrs td) n); [reflexivity|].
    apply agrees_bind. destruct fuel as [|fl]; [lia|].
    rewrite eloop_other; auto.
    - apply payloads_loop; auto; [| |lia].
      + intros k Hk. apply payload_step; auto.
      + intros k Hk. apply payload_txt. auto.
    - apply quiet_kids; [|exact I]. intros k Hk. apply payload_txt. auto.
  Qed.

  Lemma unit_works : forall fuel id td vs dflt n attrs m s,
    nth_error E id = Some td -> t_body td = DEnum vs dflt -> ya_tag (t_attrs td) = None ->
    variant_for vs (n_local n) = None ->
    ~ user_payload (variant_for vs s) ->
    3 < fuel ->
    works (De.de x E (S fuel)) id (Elem n attrs m [Txt s]).
  Proof.
    intros fuel id td vs dflt n attrs m s Htd Hbody Htag Hn Hs Hfuel d fn tail.
    cbn [De.de]. unfold de_body. rewrite Htd, Hbody. unfold de_enum.
    cbn [SpecTree.decode]. rewrite Htd, Hbody, Htag.
    unfold left_over. rewrite Htd, Hbody, Htag.
    rewrite flat_elem_app, vrun_peek_ev, vrun_Depth, namespace_check_bad.
    destruct (bad_namespace (t_attrs td) n); [reflexivity|].
    cbn [flat_map flat app]. rewrite vrun_bind.
    do 3 (destruct fuel as [|fuel]; [lia|]).
    unfold text_variant.
    set (fl := S (S fuel)). cbn [enum_loop]. rewrite vrun_peek_ev, Htag.
    cbn [enum_element_name of_res bind]. rewrite find_variant_for, Hn. cbn [bind].
    rewrite (vrun_Next_ev _ _ d (S d)) by reflexivity. cbn [bind].
    rewrite vrun_peek_ev, find_variant_for, vrun_bind.
    destruct (variant_for vs s) as [[i [|flg t|]]|] eqn:Hv; cbn [enum_arm].
    - reflexivity.
    - change (fbase t) with (base_of t). destruct (base_of t) as [sm|id'] eqn:Hb.
      2:{ exfalso. apply Hs. exists i, flg, t, id'. auto. }
      rewrite vrun_bind. unfold read_payload. rewrite vrun_attempt. unfold read_inner_value.
      rewrite (vrun_Next_ev _ _ (S d) (S d)) by reflexivity. cbn [vrun]. unfold fl.
      rewrite eloop_own_end by reflexivity. reflexivity.
    - (* named variants are not found *)
      exfalso. unfold variant_for in Hv. destruct (find _ _) as [[j v]|] eqn:Hf; [|discriminate].
      apply find_some in Hf. destruct Hf as [_ Hf]. cbn [snd] in Hf. inversion Hv; subst.
      rewrite H1 in Hf. discriminate.
    - cbn [vrun]. unfold fl. rewrite eloop_txt, eloop_own_end by reflexivity. reflexivity.
  Qed.

  Lemma tagged_works : forall fuel id td vs dflt tg n attrs m,
    nth_error E id = Some td -> t_body td = DEnum vs dflt -> ya_tag (t_attrs td) = Some tg ->
    (forall a b, In a attrs -> n_local (at_name a) = tg ->
       variant_for vs (at_value a) = b -> b = None \/ exists i, b = Some (i, VbUnit)) ->
    2 < fuel ->
    works (De.de x E (S fuel)) id (Elem n attrs m []).
  Proof.
    intros fuel id td vs dflt tg n attrs m Htd Hbody Htag Ha Hfuel d fn tail.
    cbn [De.de]. unfold de_body. rewrite Htd, Hbody. unfold de_enum.
    cbn [SpecTree.decode]. rewrite Htd, Hbody, Htag.
    unfold left_over. rewrite Htd, Hbody, Htag.
    rewrite flat_elem_app, vrun_peek_ev, vrun_Depth, namespace_check_bad.
    destruct (bad_namespace (t_attrs td) n); [reflexivity|].
    cbn [flat_map flat app]. rewrite vrun_bind.
    do 2 (destruct fuel as [|fuel]; [lia|]).
    cbn [enum_loop]. rewrite vrun_peek_ev, Htag. cbn [enum_element_name].
    destruct (find (fun a => String.eqb (n_local (at_name a)) tg) attrs) as [a|] eqn:Hf; [|reflexivity].
    apply find_some in Hf. destruct Hf as [Hin Hloc]. apply String.eqb_eq in Hloc.
    cbn [of_res bind]. rewrite find_variant_for. unfold text_variant.
    destruct (Ha a _ Hin Hloc eq_refl) as [-> | [i ->]].
    - cbn [bind]. rewrite (vrun_Next_ev _ _ d (S d)) by reflexivity. cbn [bind].
      rewrite vrun_peek_ev.
      change (vrun ?p (VState (S d) (EEnd n :: tail) fn)) with (vrun p (VState (S d) (EEnd n :: tail) fn)).
      rewrite vrun_peek_ev, vrun_Depth. rewrite String.eqb_refl, Nat.eqb_refl. reflexivity.
    - reflexivity.
  Qed.

  Lemma prim_works : forall fuel id td k n attrs m kids,
    nth_error E id = Some td -> t_body td = DPrim k ->
    (kids = [] \/ exists s, kids = [Txt s]) ->
    works (De.de x E (S fuel)) id (Elem n attrs m kids).
  Proof.
    intros fuel id td k n attrs m kids Htd Hbody Hkids d fn tail.
    cbn [De.de]. unfold de_body. rewrite Htd, Hbody. unfold de_prim.
    cbn [SpecTree.decode]. rewrite Htd, Hbody.
    unfold left_over. rewrite Htd, Hbody.
    rewrite flat_elem_app, vrun_Peek_ev, (vrun_next_ev _ _ d (S d)) by reflexivity.
    destruct Hkids as [->|[s ->]]; cbn [flat_map flat app]; rewrite vrun_Peek_ev;
    destruct (parse_prim x (t_name td) k _); reflexivity.
  Qed.

  (** The generated deserializer of type [id] computes [decode]. *)
  Theorem refines : forall fuel id t, Fits id t -> len t + 5 + K < fuel ->
    works (De.de x E fuel) id t.
  Proof.
    induction fuel as [|fuel IH]; intros id t Hfit Hfuel; [lia|].
    assert (Hsub : forall n a m kids, t = Elem n a m kids -> forall k id', In k kids -> Fits id' k -> works (De.de x E fuel) id' k).
    { intros n a m kids -> k id' Hk Hk'. apply IH; [assumption|].
      pose proof (len_in _ _ Hk). rewrite len_elem in Hfuel. lia. }
    inversion Hfit; subst.
    - eapply struct_works; eauto. lia.
    - eapply unit_works; eauto. rewrite len_elem in Hfuel. lia.
    - eapply payload_works; eauto. lia.
    - eapply tagged_works; eauto. rewrite len_elem in Hfuel. lia.
    - eapply prim_works; eauto.
  Qed.
End Refine.
