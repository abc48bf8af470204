(** * Proofs about struct deserializers on conforming trees. *)
From Verif Require Import Str Num Xml XmlText Reader Schema De RunFacts SpecTree TreeFacts TreeProofs
  SpecText TextProofs SpecValue ValueProofs SpecStruct.
Open Scope list_scope.

(** ** [ocollect] *)
Lemma ocollect_app : forall A B (g : A -> outcome (list B)) l1 l2,
  ocollect g (l1 ++ l2) = obind (ocollect g l1) (fun u => obind (ocollect g l2) (fun w => OOk (u ++ w))).
Proof.
  intros A B g l1 l2; induction l1 as [|a l1 IH]; cbn [app ocollect obind].
  - destruct (ocollect g l2); reflexivity.
  - rewrite IH. destruct (g a); cbn [obind]; try reflexivity.
    destruct (ocollect g l1); cbn [obind]; try reflexivity.
    destruct (ocollect g l2); cbn [obind]; try reflexivity. rewrite app_assoc. reflexivity.
Qed.

Lemma ocollect_cons : forall A B (g : A -> outcome (list B)) a l,
  ocollect g (a :: l) = obind (g a) (fun u => obind (ocollect g l) (fun w => OOk (u ++ w))).
Proof. reflexivity. Qed.

Lemma obind_ok : forall A B (o : outcome A) (k : A -> outcome B) b,
  obind o k = OOk b -> exists a, o = OOk a /\ k a = OOk b.
Proof. intros A B [a| | |] k b H; try discriminate. eauto. Qed.

(** ** [fields_result] *)
Lemma fields_result_ext : forall x tn fs i c c', (forall j, given j c = given j c') ->
  fields_result x tn i fs c = fields_result x tn i fs c'.
Proof.
  intros x tn; induction fs as [|f fs IH]; intros i c c' H; [reflexivity|].
  cbn [fields_result]. rewrite H, (IH (S i) c c' H). reflexivity.
Qed.

Lemma fields_result_nth : forall x tn fs i c vs j f,
  fields_result x tn i fs c = Ok vs -> nth_error fs j = Some f ->
  exists v, nth_error vs j = Some v /\ field_result x tn f (given (i + j) c) = Ok v.
Proof.
  intros x tn; induction fs as [|g fs IH]; intros i c vs j f H Hj; [destruct j; discriminate|].
  cbn [fields_result] in H. destruct (field_result x tn g (given i c)) as [v|] eqn:Hv; [|discriminate].
  destruct (fields_result x tn (S i) fs c) as [ws|] eqn:Hws; [|discriminate]. inversion H; subst.
  destruct j as [|j]; cbn [nth_error] in Hj |- *.
  - inversion Hj; subst. rewrite Nat.add_0_r. eauto.
  - rewrite <- Nat.add_succ_comm. eapply IH; eassumption.
Qed.

Lemma fields_result_err : forall x tn fs i c c' vs j f m,
  fields_result x tn i fs c' = Ok vs -> nth_error fs j = Some f ->
  field_result x tn f (given (i + j) c) = Er m ->
  (forall l, l <> i + j -> given l c = given l c') ->
  fields_result x tn i fs c = Er m.
Proof.
  intros x tn; induction fs as [|g fs IH]; intros i c c' vs j f m H Hj Hm Ho; [destruct j; discriminate|].
  cbn [fields_result] in H |- *. destruct (field_result x tn g (given i c')) as [v|] eqn:Hv; [|discriminate].
  destruct (fields_result x tn (S i) fs c') as [ws|] eqn:Hws; [|discriminate].
  destruct j as [|j]; cbn [nth_error] in Hj.
  - inversion Hj; subst. rewrite Nat.add_0_r in Hm. rewrite Hm. reflexivity.
  - rewrite (Ho i) by lia. rewrite Hv. erewrite IH; [reflexivity|eassumption|eassumption| |].
    + rewrite <- Hm. f_equal. f_equal. lia.
    + intros l Hl. apply Ho. lia.
Qed.

Lemma fields_result_length : forall x tn fs i c vs, fields_result x tn i fs c = Ok vs ->
  List.length vs = List.length fs.
Proof.
  intros x tn; induction fs as [|f fs IH]; intros i c vs H; cbn [fields_result] in H; [inversion H; reflexivity|].
  destruct (field_result x tn f (given i c)); [|discriminate].
  destruct (fields_result x tn (S i) fs c) eqn:Hf; [|discriminate]. inversion H; subst. cbn. f_equal. eapply IH; eassumption.
Qed.

Lemma nth_numbered : forall A (l : list A) i a, nth_error l i = Some a -> In (i, a) (numbered l).
Proof.
  intros A l. unfold numbered.
  assert (H : forall l j i (a : A), nth_error l i = Some a -> In (j + i, a) (combine (seq j (List.length l)) l)).
  { clear l. induction l as [|b l IH]; intros j i a Hi; [destruct i; discriminate|].
    rewrite combine_seq_cons. destruct i as [|i]; cbn [nth_error] in Hi.
    - inversion Hi; subst. left. rewrite Nat.add_0_r. reflexivity.
    - right. rewrite <- Nat.add_succ_comm. apply IH. assumption. }
  intros i a Hi. apply (H l 0 i a Hi).
Qed.

Lemma find_numbered_first : forall A (p : nat * A -> bool) l i a,
  nth_error l i = Some a -> p (i, a) = true ->
  (forall j b, j < i -> nth_error l j = Some b -> p (j, b) = false) ->
  find p (numbered l) = Some (i, a).
Proof.
  intros A p l i a Hi Hp Ho. unfold numbered.
  assert (H : forall l j i, nth_error l i = Some a -> p (j + i, a) = true ->
    (forall k b, k < i -> nth_error l k = Some b -> p (j + k, b) = false) ->
    find p (combine (seq j (List.length l)) l) = Some (j + i, a)).
  { clear. induction l as [|b l IH]; intros j i Hi Hp Ho; [destruct i; discriminate|].
    rewrite combine_seq_cons. cbn [find]. destruct i as [|i]; cbn [nth_error] in Hi.
    - inversion Hi; subst. rewrite Nat.add_0_r in *. rewrite Hp. reflexivity.
    - pose proof (Ho 0 b ltac:(lia) eq_refl) as H0. rewrite Nat.add_0_r in H0. rewrite H0.
      rewrite <- Nat.add_succ_comm. rewrite (IH (S j) i Hi); [reflexivity| |].
      + rewrite Nat.add_succ_comm. exact Hp.
      + intros k c Hk Hc. rewrite Nat.add_succ_comm. apply Ho; [lia|exact Hc]. }
  apply (H l 0 i Hi Hp Ho).
Qed.

Lemma label_eqb_eq : forall a b, label_eqb a b = true <-> a = b.
Proof.
  intros [a1 a2] [b1 b2]. unfold label_eqb. rewrite andb_true_iff, !String.eqb_eq. cbn.
  split; [intros [-> ->]; reflexivity|intros H; inversion H; auto].
Qed.

Lemma field_for_first : forall ra fs i f n, first_labelled ra fs i f -> elabel n = flabel ra f ->
  field_for ra fs n = Some (i, f).
Proof.
  intros ra fs i f n (Hi & [Ha Hf] & Ho) Hl. unfold field_for. apply find_numbered_first; auto.
  - cbn [snd]. rewrite Ha, Hf. cbn [negb andb]. apply label_eqb_eq. congruence.
  - intros j g Hj Hg. cbn [snd]. destruct (ya_attribute (f_attrs g)) eqn:Hga; [reflexivity|].
    destruct (ya_flatten (f_attrs g)) eqn:Hgf; [reflexivity|]. cbn [negb andb].
    destruct (label_eqb (flabel ra g) (elabel n)) eqn:He; [|reflexivity].
    apply label_eqb_eq in He. exfalso. apply (Ho j g Hj Hg); [split; assumption|congruence].
Qed.

Lemma given_in : forall i c v, In v (given i c) -> In (i, v) c.
Proof.
  intros i c v H. unfold given in H. apply in_map_iff in H. destruct H as ([j w] & <- & H).
  apply filter_In in H. destruct H as [H1 H2]. cbn in H2. apply Nat.eqb_eq in H2. cbn. subst. assumption.
Qed.

Lemma given_nil_iff : forall i c, (forall p, In p c -> fst p <> i) -> given i c = [].
Proof. intros; apply given_none; assumption. Qed.

Section Decode.
  Variable x : ext.
  Variable E : env.
  Variable av : nat -> string -> outcome value.
  Variable fv : nat -> node -> outcome value.

  Definition rest_of (ra : yattr) (fs : list field) (n : name) (a : list attr) (m : nsmap) (kids : list node) : node :=
    Elem n a m (filter (is_left ra fs) kids).

  (** What a struct element contributes. *)
  Definition contributions (td : typedef) (fs : list field) n a m kids : outcome (list (nat * value)) :=
    obind (attrs_given x av fs a) (fun ca =>
    obind (ocollect (kid_given x (decode x E av fv false) (t_attrs td) fs) kids) (fun ck =>
    obind (ocollect (flat_given fv (rest_of (t_attrs td) fs n a m kids)) (numbered fs)) (fun cf =>
    OOk (ca ++ ck ++ cf)))).

  Lemma decode_struct : forall top id td fs n a m kids, struct_type E id td fs ->
    decode x E av fv top id (Elem n a m kids) =
    match (if top then bad_namespace (t_attrs td) n else None) with
    | Some e => OErr e
    | None => obind (contributions td fs n a m kids) (fun c =>
              obind (ores (fields_result x (t_name td) 0 fs c)) (fun vs => OOk (VRec vs)))
    end.
  Proof.
    intros top id td fs n a m kids [H1 H2]. cbn [decode]. rewrite H1, H2.
    destruct (if top then bad_namespace (t_attrs td) n else None); [reflexivity|].
    unfold contributions, rest_of.
    destruct (attrs_given x av fs a); cbn [obind]; try reflexivity.
    destruct (ocollect (kid_given x (decode x E av fv false) (t_attrs td) fs) kids); cbn [obind]; try reflexivity.
    destruct (ocollect (flat_given fv _) (numbered fs)); reflexivity.
  Qed.

  Lemma decode_struct_ok : forall top id td fs n a m kids v, struct_type E id td fs ->
    decode x E av fv top id (Elem n a m kids) = OOk v ->
    exists ca ck cf vs, (top = true -> bad_namespace (t_attrs td) n = None) /\
      attrs_given x av fs a = OOk ca /\
      ocollect (kid_given x (decode x E av fv false) (t_attrs td) fs) kids = OOk ck /\
      ocollect (flat_given fv (rest_of (t_attrs td) fs n a m kids)) (numbered fs) = OOk cf /\
      fields_result x (t_name td) 0 fs (ca ++ ck ++ cf) = Ok vs /\ v = VRec vs.
  Proof.
    intros top id td fs n a m kids v Hs H. rewrite (decode_struct _ _ _ _ _ _ _ _ Hs) in H.
    destruct (if top then bad_namespace (t_attrs td) n else None) eqn:Hb; [discriminate|].
    apply obind_ok in H. destruct H as (c & Hc & H). apply obind_ok in H. destruct H as (vs & Hvs & H).
    unfold contributions in Hc. apply obind_ok in Hc. destruct Hc as (ca & Hca & Hc).
    apply obind_ok in Hc. destruct Hc as (ck & Hck & Hc). apply obind_ok in Hc. destruct Hc as (cf & Hcf & Hc).
    inversion Hc; subst. exists ca, ck, cf, vs. repeat split; auto.
    - destruct top; [auto|discriminate].
    - destruct (fields_result x (t_name td) 0 fs (ca ++ ck ++ cf)); inversion Hvs; subst; reflexivity.
    - inversion H; reflexivity.
  Qed.

  Lemma decode_struct_intro : forall top id td fs n a m kids ca ck cf, struct_type E id td fs ->
    (top = true -> bad_namespace (t_attrs td) n = None) ->
    attrs_given x av fs a = OOk ca ->
    ocollect (kid_given x (decode x E av fv false) (t_attrs td) fs) kids = OOk ck ->
    ocollect (flat_given fv (rest_of (t_attrs td) fs n a m kids)) (numbered fs) = OOk cf ->
    decode x E av fv top id (Elem n a m kids) =
    obind (ores (fields_result x (t_name td) 0 fs (ca ++ ck ++ cf))) (fun vs => OOk (VRec vs)).
  Proof.
    intros top id td fs n a m kids ca ck cf Hs Hb Hca Hck Hcf.
    rewrite (decode_struct _ _ _ _ _ _ _ _ Hs). unfold contributions. rewrite Hca. cbn [obind]. rewrite Hck.
    cbn [obind]. rewrite Hcf. cbn [obind].
    destruct top; [rewrite Hb by reflexivity|]; reflexivity.
  Qed.

  (** *** Where contributions go *)
  Lemma attrs_given_match : forall fs attrs ca p,
    attrs_given x av fs attrs = OOk ca -> In p ca ->
    exists f a, nth_error fs (fst p) = Some f /\ ya_attribute (f_attrs f) = true /\
      In a attrs /\ n_local (at_name a) = field_name f.
  Proof.
    intros fs attrs ca p H Hin. unfold attrs_given in H.
    destruct (ocollect_in _ _ _ _ _ _ H Hin) as ([i f] & u & Hi & Hu & Hp).
    cbn [fst snd] in Hu. destruct (ya_attribute (f_attrs f)) eqn:Ha; [|inversion Hu; subst; destruct Hp].
    destruct (ocollect_in _ _ _ _ _ _ Hu Hp) as (a & u' & Hain & Hu' & Hp').
    rewrite (attr_given_index _ _ _ _ _ _ _ Hu' Hp'). exists f, a. repeat split; auto.
    - apply numbered_in; assumption.
    - unfold attr_given in Hu'. destruct (String.eqb _ _) eqn:He; [apply String.eqb_eq in He; exact He|].
      inversion Hu'; subst. destruct Hp'.
  Qed.

  Lemma kid_given_match : forall sub ra fs k u p,
    kid_given x sub ra fs k = OOk u -> In p u ->
    exists f, nth_error fs (fst p) = Some f /\
      match k with
      | Txt s => ya_text (f_attrs f) = true /\ snd p = VStr s
      | Elem n _ _ _ => field_for ra fs n = Some (fst p, f)
      end.
  Proof.
    intros sub ra fs k u p Hu Hp. unfold kid_given in Hu. destruct k as [n a m ks|s].
    - destruct (field_for ra fs n) as [[i f]|] eqn:Hf; [|inversion Hu; subst; destruct Hp].
      assert (fst p = i) as ->.
      { destruct (base_of (f_ty f)).
        + inversion Hu; subst. unfold simple_given in Hp.
          destruct ks as [|[|] []]; try destruct Hp.
          destruct (visit_simple x s s0); [|destruct Hp]. destruct Hp as [<-|[]]; reflexivity.
        + destruct (sub id (Elem n a m ks)); try discriminate.
          inversion Hu; subst. destruct Hp as [<-|[]]; reflexivity. }
      exists f. split; [|reflexivity]. apply field_for_spec in Hf. tauto.
    - inversion Hu; subst. apply in_map_iff in Hp. destruct Hp as (i & <- & Hi).
      unfold text_fields in Hi. apply in_map_iff in Hi. destruct Hi as ([j f] & <- & Hi).
      apply filter_In in Hi. destruct Hi as [H1 H2]. cbn [fst snd] in *.
      apply andb_true_iff in H2. exists f. split; [apply numbered_in; assumption|tauto].
  Qed.

  Lemma flat_given_match : forall rest fs cf p,
    ocollect (flat_given fv rest) (numbered fs) = OOk cf -> In p cf ->
    exists f, nth_error fs (fst p) = Some f /\ flat_field f = true.
  Proof.
    intros rest fs cf p H Hin.
    destruct (ocollect_in _ _ _ _ _ _ H Hin) as ([i f] & u & Hi & Hu & Hp).
    unfold flat_given in Hu.
    change (negb (ya_attribute (f_attrs f)) && ya_flatten (f_attrs f))%bool with (flat_field f) in Hu.
    destruct (flat_field f) eqn:Hff; [|inversion Hu; subst; destruct Hp].
    assert (fst p = i) as ->.
    { destruct (f_ty f) as [[|id]|[|id]| |]; try discriminate;
      destruct (fv id rest); inversion Hu; subst; try destruct Hp as [<-|[]]; try reflexivity; destruct Hp. }
    exists f. split; [apply numbered_in; assumption|assumption].
  Qed.

  Lemma given_attrs_nil : forall fs attrs ca i f,
    attrs_given x av fs attrs = OOk ca -> nth_error fs i = Some f ->
    (ya_attribute (f_attrs f) = true -> forall a, In a attrs -> n_local (at_name a) <> field_name f) ->
    given i ca = [].
  Proof.
    intros fs attrs ca i f H Hi Hn. apply given_none. intros p Hp <-.
    destruct (attrs_given_match _ _ _ _ H Hp) as (f' & a & H1 & H2 & H3 & H4).
    rewrite Hi in H1. inversion H1; subst. exact (Hn H2 a H3 H4).
  Qed.

  Lemma given_kids_nil : forall sub ra fs kids ck i f,
    ocollect (kid_given x sub ra fs) kids = OOk ck -> nth_error fs i = Some f ->
    (elem_field f -> forall n a m ks, In (Elem n a m ks) kids -> elabel n <> flabel ra f) ->
    (ya_text (f_attrs f) = true -> forall s, ~ In (Txt s) kids) ->
    given i ck = [].
  Proof.
    intros sub ra fs kids ck i f H Hi He Ht. apply given_none. intros p Hp <-.
    destruct (ocollect_in _ _ _ _ _ _ H Hp) as (k & u & Hk & Hu & Hpu).
    destruct (kid_given_match _ _ _ _ _ _ Hu Hpu) as (f' & H1 & H2).
    rewrite Hi in H1. inversion H1; subst. destruct k as [n a m ks|s].
    - apply field_for_spec in H2. destruct H2 as (_ & Ha & Hfl & Hl).
      exact (He (conj Ha Hfl) _ _ _ _ Hk (eq_sym Hl)).
    - destruct H2 as [H2 _]. exact (Ht H2 s Hk).
  Qed.

  Lemma given_flat_nil : forall rest fs cf i f,
    ocollect (flat_given fv rest) (numbered fs) = OOk cf -> nth_error fs i = Some f ->
    flat_field f = false -> given i cf = [].
  Proof.
    intros rest fs cf i f H Hi Hf. apply given_none. intros p Hp <-.
    destruct (flat_given_match _ _ _ _ H Hp) as (f' & H1 & H2). congruence.
  Qed.

  Lemma elem_not_flat : forall f, ya_flatten (f_attrs f) = false \/ ya_attribute (f_attrs f) = true -> flat_field f = false.
  Proof.
    intros f [H|H]; unfold flat_field; rewrite H; [apply andb_false_r|reflexivity].
  Qed.

  Lemma flattens_false : forall fs f, flattens fs = false -> In f fs -> flat_field f = false.
  Proof.
    intros fs f H Hin. destruct (flat_field f) eqn:Hf; [|reflexivity].
    assert (flattens fs = true); [|congruence]. apply existsb_exists. eauto.
  Qed.

  Lemma flat_given_off : forall rest fs, flattens fs = false ->
    ocollect (flat_given fv rest) (numbered fs) = OOk [].
  Proof.
    intros rest fs H. unfold numbered. apply flat_given_none. intros f Hf. eapply flattens_false; eassumption.
  Qed.

  (** *** Missing fields *)
  Lemma unsupplied_given : forall td fs n a m kids ca ck cf i f,
    attrs_given x av fs a = OOk ca ->
    ocollect (kid_given x (decode x E av fv false) (t_attrs td) fs) kids = OOk ck ->
    ocollect (flat_given fv (rest_of (t_attrs td) fs n a m kids)) (numbered fs) = OOk cf ->
    nth_error fs i = Some f -> unsupplied (t_attrs td) f a kids ->
    given i (ca ++ ck ++ cf) = [].
  Proof.
    intros td fs n a m kids ca ck cf i f Hca Hck Hcf Hi (U1 & U2 & U3).
    rewrite !given_app.
    rewrite (given_attrs_nil _ _ _ _ _ Hca Hi U1).
    rewrite (given_kids_nil _ _ _ _ _ _ _ Hck Hi); [| |exact U3].
    2:{ intros [Ha _]. apply (U2 Ha). }
    rewrite (given_flat_nil _ _ _ _ _ Hcf Hi); [reflexivity|].
    apply elem_not_flat. destruct (ya_attribute (f_attrs f)) eqn:Ha; [auto|left; apply (U2 eq_refl)].
  Qed.

  Lemma field_result_missing : forall tn f,
    field_result x tn f [] =
    match missing_value x f with Some v => Ok v | None => Er (f_label f +++ " is a required field of " +++ tn) end.
  Proof.
    intros tn f. unfold field_result, missing_value. destruct (f_ty f); try reflexivity.
    cbn [last_of]. destruct (ya_default (f_attrs f)); reflexivity.
  Qed.

  Lemma decode_missing : forall top id td fs n a m kids i f vs,
    struct_type E id td fs -> nth_error fs i = Some f -> unsupplied (t_attrs td) f a kids ->
    decode x E av fv top id (Elem n a m kids) = OOk (VRec vs) ->
    missing_value x f <> None /\ nth_error vs i = missing_value x f.
  Proof.
    intros top id td fs n a m kids i f vs Hs Hi Hu H.
    destruct (decode_struct_ok _ _ _ _ _ _ _ _ _ Hs H) as (ca & ck & cf & vs' & _ & Hca & Hck & Hcf & Hf & Heq).
    inversion Heq; subst vs'. destruct (fields_result_nth _ _ _ _ _ _ _ _ Hf Hi) as (v & Hv & Hr).
    cbn [Nat.add] in Hr. rewrite (unsupplied_given _ _ _ _ _ _ _ _ _ _ _ Hca Hck Hcf Hi Hu) in Hr.
    rewrite field_result_missing in Hr. destruct (missing_value x f); [|discriminate]. inversion Hr; subst.
    split; [discriminate|assumption].
  Qed.

  Lemma decode_rec : forall top id td fs n a m kids v, struct_type E id td fs ->
    decode x E av fv top id (Elem n a m kids) = OOk v -> exists vs, v = VRec vs.
  Proof.
    intros top id td fs n a m kids v Hs H.
    destruct (decode_struct_ok _ _ _ _ _ _ _ _ _ Hs H) as (ca & ck & cf & vs & _ & _ & _ & _ & _ & ->). eauto.
  Qed.

  (** Adding one child for field [f] does not change what is left for
      flattened fields. *)
  Lemma rest_used : forall ra fs n a m k1 k2 kn ka km kk p,
    field_for ra fs kn = Some p ->
    rest_of ra fs n a m (k1 ++ Elem kn ka km kk :: k2) = rest_of ra fs n a m (k1 ++ k2).
  Proof.
    intros ra fs n a m k1 k2 kn ka km kk p Hp. unfold rest_of. rewrite !filter_app. cbn [filter is_left].
    rewrite Hp. reflexivity.
  Qed.

  Lemma decode_required : forall top id td fs n a m k1 k2 kn ka km kk i f v,
    struct_type E id td fs -> first_labelled (t_attrs td) fs i f -> missing_value x f = None ->
    unsupplied (t_attrs td) f a (k1 ++ k2) -> elabel kn = flabel (t_attrs td) f ->
    decode x E av fv top id (Elem n a m (k1 ++ Elem kn ka km kk :: k2)) = OOk v ->
    decode x E av fv top id (Elem n a m (k1 ++ k2)) = OErr (f_label f +++ " is a required field of " +++ t_name td).
  Proof.
    intros top id td fs n a m k1 k2 kn ka km kk i f v Hs Hfl Hmiss Hu Hl H.
    destruct (decode_struct_ok _ _ _ _ _ _ _ _ _ Hs H) as (ca & ck & cf & vs & Hb & Hca & Hck & Hcf & Hf & Heq).
    pose proof (field_for_first _ _ _ _ _ Hfl Hl) as Hff.
    rewrite (rest_used _ _ _ _ _ _ _ _ _ _ _ _ Hff) in Hcf.
    rewrite ocollect_app in Hck. apply obind_ok in Hck. destruct Hck as (c1 & Hc1 & Hck).
    rewrite ocollect_cons in Hck. apply obind_ok in Hck. destruct Hck as (w & Hw & Hck).
    apply obind_ok in Hw. destruct Hw as (u & Huk & Hw). apply obind_ok in Hw. destruct Hw as (c2 & Hc2 & Hw).
    inversion Hw; subst w. inversion Hck; subst ck. clear Hw Hck.
    assert (Hck : ocollect (kid_given x (decode x E av fv false) (t_attrs td) fs) (k1 ++ k2) = OOk (c1 ++ c2)).
    { rewrite ocollect_app, Hc1. cbn [obind]. rewrite Hc2. reflexivity. }
    rewrite (decode_struct_intro top id td fs n a m (k1 ++ k2) ca (c1 ++ c2) cf Hs Hb Hca Hck Hcf).
    destruct Hfl as (Hi & _ & _).
    rewrite (fields_result_err x (t_name td) fs 0 _ (ca ++ (c1 ++ u ++ c2) ++ cf) vs i f
               (f_label f +++ " is a required field of " +++ t_name td)); auto.
    - cbn [Nat.add]. rewrite (unsupplied_given _ _ _ _ _ _ _ _ _ _ _ Hca Hck Hcf Hi Hu).
      rewrite field_result_missing, Hmiss. reflexivity.
    - intros l Hl'. rewrite !given_app. do 2 f_equal.
      assert (given l u = []) as ->; [|reflexivity].
      apply given_none. intros p Hp Hpl. destruct (kid_given_match _ _ _ _ _ _ Huk Hp) as (f' & _ & Hf').
      rewrite Hff in Hf'. inversion Hf'. subst. cbn in Hl'. congruence.
  Qed.

  (** *** Repeated elements *)
  Lemma last_of_rev : forall l, last_of l = match rev l with [] => None | v :: _ => Some v end.
  Proof.
    induction l as [|a l IH] using rev_ind; [reflexivity|].
    rewrite last_of_snoc, rev_app_distr. reflexivity.
  Qed.

  Lemma field_result_collected : forall tn f l v, field_result x tn f l = Ok v -> collected x f l = Some v.
  Proof.
    intros tn f l v H. unfold field_result in H. unfold collected. rewrite last_of_rev in H.
    destruct (f_ty f) eqn:Hty; destruct (rev l); inversion H; subst; try reflexivity.
    - unfold missing_value. rewrite Hty. destruct (ya_default (f_attrs f)); inversion H1; reflexivity.
    - unfold missing_value. rewrite Hty. reflexivity.
    - unfold missing_value. rewrite Hty. reflexivity.
  Qed.

  (** *** Order *)
  Lemma kid_text_disjoint : forall sub ra fs n a m ks s ua ub i,
    (forall f, In f fs -> ya_text (f_attrs f) = true -> flabel ra f <> elabel n) ->
    kid_given x sub ra fs (Elem n a m ks) = OOk ua -> kid_given x sub ra fs (Txt s) = OOk ub ->
    given i ua = [] \/ given i ub = [].
  Proof.
    intros sub ra fs n a m ks s ua ub i H Ha Hb.
    destruct (given i ua) as [|v l] eqn:Hga; [auto|]. right.
    assert (Hin : In (i, v) ua) by (apply given_in; rewrite Hga; left; reflexivity).
    destruct (kid_given_match _ _ _ _ _ _ Ha Hin) as (f & H1 & H2). cbn [fst] in *.
    apply given_none. intros p Hp Hpi. destruct (kid_given_match _ _ _ _ _ _ Hb Hp) as (f' & H1' & H2' & _).
    rewrite Hpi, H1 in H1'. inversion H1'; subst. apply field_for_spec in H2. destruct H2 as (_ & _ & _ & Hl).
    apply (H f'); auto. eapply nth_error_In; eassumption.
  Qed.

  Lemma kids_disjoint : forall sub ra fs k1 k2 u1 u2 i, may_swap ra fs k1 k2 ->
    kid_given x sub ra fs k1 = OOk u1 -> kid_given x sub ra fs k2 = OOk u2 ->
    given i u1 = [] \/ given i u2 = [].
  Proof.
    intros sub ra fs k1 k2 u1 u2 i [Hm _] H1 H2. destruct k1 as [n a m ks|s], k2 as [n' a' m' ks'|s'].
    - destruct (given i u1) as [|v l] eqn:Hg; [auto|]. right.
      assert (Hin : In (i, v) u1) by (apply given_in; rewrite Hg; left; reflexivity).
      destruct (kid_given_match _ _ _ _ _ _ H1 Hin) as (f & _ & Hf). cbn [fst] in *.
      apply given_none. intros p Hp Hpi. destruct (kid_given_match _ _ _ _ _ _ H2 Hp) as (f' & _ & Hf').
      apply field_for_spec in Hf. apply field_for_spec in Hf'.
      destruct Hf as (Hf1 & _ & _ & Hf2), Hf' as (Hf1' & _ & _ & Hf2'). rewrite Hpi, Hf1 in Hf1'.
      inversion Hf1'; subst. congruence.
    - eapply kid_text_disjoint; eassumption.
    - apply or_comm. eapply kid_text_disjoint; eassumption.
    - destruct Hm.
  Qed.

  Lemma decode_swap : forall top id td fs n a m pre k1 k2 post v, struct_type E id td fs ->
    may_swap (t_attrs td) fs k1 k2 ->
    decode x E av fv top id (Elem n a m (pre ++ k1 :: k2 :: post)) = OOk v ->
    decode x E av fv top id (Elem n a m (pre ++ k2 :: k1 :: post)) = OOk v.
  Proof.
    intros top id td fs n a m pre k1 k2 post v Hs Hsw H.
    destruct (decode_struct_ok _ _ _ _ _ _ _ _ _ Hs H) as (ca & ck & cf & vs & Hb & Hca & Hck & Hcf & Hf & ->).
    rewrite ocollect_app in Hck. apply obind_ok in Hck. destruct Hck as (c1 & Hc1 & Hck).
    rewrite !ocollect_cons in Hck. apply obind_ok in Hck. destruct Hck as (w & Hw & Hck).
    apply obind_ok in Hw. destruct Hw as (u1 & Hu1 & Hw). apply obind_ok in Hw. destruct Hw as (w2 & Hw2 & Hw).
    apply obind_ok in Hw2. destruct Hw2 as (u2 & Hu2 & Hw2). apply obind_ok in Hw2. destruct Hw2 as (c2 & Hc2 & Hw2).
    inversion Hw2; subst w2. inversion Hw; subst w. inversion Hck; subst ck. clear Hw Hw2 Hck.
    assert (Hck : ocollect (kid_given x (decode x E av fv false) (t_attrs td) fs) (pre ++ k2 :: k1 :: post) = OOk (c1 ++ u2 ++ u1 ++ c2)).
    { rewrite ocollect_app, Hc1. cbn [obind]. rewrite !ocollect_cons, Hu2, Hu1. cbn [obind]. rewrite Hc2. reflexivity. }
    assert (Hcf' : ocollect (flat_given fv (rest_of (t_attrs td) fs n a m (pre ++ k2 :: k1 :: post))) (numbered fs) = OOk cf).
    { destruct (flattens fs) eqn:Hfl.
      - rewrite <- Hcf. do 2 f_equal. unfold rest_of. f_equal. rewrite !filter_app. f_equal. cbn [filter].
        destruct Hsw as [_ Hsw]. destruct (Hsw Hfl) as [Hl|Hl]; rewrite Hl; [destruct (is_left (t_attrs td) fs k2)|destruct (is_left (t_attrs td) fs k1)]; reflexivity.
      - rewrite flat_given_off in Hcf |- * by assumption. assumption. }
    rewrite (decode_struct_intro top id td fs n a m _ ca _ cf Hs Hb Hca Hck Hcf').
    rewrite (fields_result_ext _ _ _ _ _ (ca ++ (c1 ++ u1 ++ u2 ++ c2) ++ cf)).
    - rewrite Hf. reflexivity.
    - intros i. rewrite !given_app.
      destruct (kids_disjoint _ _ _ _ _ _ _ i Hsw Hu1 Hu2) as [->| ->]; cbn [app]; rewrite ?app_nil_r; reflexivity.
  Qed.

  (** *** Content that contributes nothing *)
  Lemma decode_noop : forall top id td fs n a m k1 k k2, struct_type E id td fs -> flattens fs = false ->
    kid_given x (decode x E av fv false) (t_attrs td) fs k = OOk [] ->
    decode x E av fv top id (Elem n a m (k1 ++ k :: k2)) = decode x E av fv top id (Elem n a m (k1 ++ k2)).
  Proof.
    intros top id td fs n a m k1 k k2 Hs Hf Hk. rewrite !(decode_struct _ _ _ _ _ _ _ _ Hs).
    unfold contributions. rewrite !flat_given_off by assumption.
    rewrite !ocollect_app, ocollect_cons, Hk. cbn [obind].
    destruct (ocollect (kid_given x (decode x E av fv false) (t_attrs td) fs) k2); reflexivity.
  Qed.

  Lemma attrs_noop : forall fs a1 b a2,
    (forall f, In f fs -> ya_attribute (f_attrs f) = true -> n_local (at_name b) <> field_name f) ->
    attrs_given x av fs (a1 ++ b :: a2) = attrs_given x av fs (a1 ++ a2).
  Proof.
    intros fs a1 b a2 H. unfold attrs_given.
    assert (Hin : forall p, In p (numbered fs) -> In (snd p) fs).
    { intros [i f] Hp. apply numbered_in in Hp. eapply nth_error_In; eassumption. }
    revert Hin. generalize (numbered fs) as l. induction l as [|[i f] l IH]; intros Hin; [reflexivity|].
    rewrite !ocollect_cons, IH by (intros p Hp; apply Hin; right; assumption).
    cbn [fst snd]. destruct (ya_attribute (f_attrs f)) eqn:Ha; [|reflexivity].
    rewrite !ocollect_app, ocollect_cons.
    assert (attr_given x av i f b = OOk []) as ->.
    { unfold attr_given. destruct (String.eqb _ _) eqn:He; [|reflexivity]. apply String.eqb_eq in He.
      exfalso. apply (H f); auto. apply (Hin (i, f)). left; reflexivity. }
    cbn [obind]. destruct (ocollect (attr_given x av i f) a2); reflexivity.
  Qed.

  Lemma decode_attr_noop : forall top id td fs n a1 b a2 m kids, struct_type E id td fs -> flattens fs = false ->
    (forall f, In f fs -> ya_attribute (f_attrs f) = true -> n_local (at_name b) <> field_name f) ->
    decode x E av fv top id (Elem n (a1 ++ b :: a2) m kids) = decode x E av fv top id (Elem n (a1 ++ a2) m kids).
  Proof.
    intros top id td fs n a1 b a2 m kids Hs Hf Hb. rewrite !(decode_struct _ _ _ _ _ _ _ _ Hs).
    unfold contributions. rewrite !flat_given_off by assumption. rewrite attrs_noop by assumption. reflexivity.
  Qed.

  (** *** The root's name *)
  Lemma decode_name : forall top id td fs n n' a m m' kids, struct_type E id td fs -> flattens fs = false ->
    (top = true -> bad_namespace (t_attrs td) n = None /\ bad_namespace (t_attrs td) n' = None) ->
    decode x E av fv top id (Elem n a m kids) = decode x E av fv top id (Elem n' a m' kids).
  Proof.
    intros top id td fs n n' a m m' kids Hs Hf Hb. rewrite !(decode_struct _ _ _ _ _ _ _ _ Hs).
    unfold contributions. rewrite !flat_given_off by assumption.
    destruct top; [destruct (Hb eq_refl) as [-> ->]|]; reflexivity.
  Qed.

  (** *** Attribute fields *)
  Lemma given_attribute : forall td fs n a m kids ca ck cf i f,
    ocollect (kid_given x (decode x E av fv false) (t_attrs td) fs) kids = OOk ck ->
    ocollect (flat_given fv (rest_of (t_attrs td) fs n a m kids)) (numbered fs) = OOk cf ->
    nth_error fs i = Some f -> ya_attribute (f_attrs f) = true -> ya_text (f_attrs f) = false ->
    given i (ca ++ ck ++ cf) = given i ca.
  Proof.
    intros td fs n a m kids ca ck cf i f Hck Hcf Hi Ha Ht. rewrite !given_app.
    rewrite (given_kids_nil _ _ _ _ _ _ _ Hck Hi).
    - rewrite (given_flat_nil _ _ _ _ _ Hcf Hi) by (apply elem_not_flat; auto). rewrite !app_nil_r. reflexivity.
    - intros [Hc _]. congruence.
    - congruence.
  Qed.

  Lemma decode_same_attrs : forall top id td fs n a m kids n' m' kids' i f vs vs',
    struct_type E id td fs -> nth_error fs i = Some f ->
    ya_attribute (f_attrs f) = true -> ya_text (f_attrs f) = false ->
    decode x E av fv top id (Elem n a m kids) = OOk (VRec vs) ->
    decode x E av fv top id (Elem n' a m' kids') = OOk (VRec vs') ->
    nth_error vs i = nth_error vs' i.
  Proof.
    intros top id td fs n a m kids n' m' kids' i f vs vs' Hs Hi Ha Ht H H'.
    destruct (decode_struct_ok _ _ _ _ _ _ _ _ _ Hs H) as (ca & ck & cf & ws & _ & Hca & Hck & Hcf & Hf & Heq).
    inversion Heq; subst ws. clear Heq.
    destruct (decode_struct_ok _ _ _ _ _ _ _ _ _ Hs H') as (ca' & ck' & cf' & ws & _ & Hca' & Hck' & Hcf' & Hf' & Heq).
    inversion Heq; subst ws. clear Heq. rewrite Hca in Hca'. inversion Hca'; subst ca'.
    destruct (fields_result_nth _ _ _ _ _ _ _ _ Hf Hi) as (v & -> & Hv).
    destruct (fields_result_nth _ _ _ _ _ _ _ _ Hf' Hi) as (v' & -> & Hv').
    cbn [Nat.add] in *. rewrite (given_attribute _ _ _ _ _ _ _ _ _ _ _ Hck Hcf Hi Ha Ht) in Hv.
    rewrite (given_attribute _ _ _ _ _ _ _ _ _ _ _ Hck' Hcf' Hi Ha Ht) in Hv'. congruence.
  Qed.

  Lemma given_all : forall i l, (forall p, In p l -> fst p = i) -> given i l = map snd l.
  Proof.
    intros i l H. unfold given. f_equal. induction l as [|p l IH]; [reflexivity|].
    cbn [filter]. rewrite (H p (or_introl eq_refl)), Nat.eqb_refl. f_equal. apply IH.
    intros q Hq. apply H. right; assumption.
  Qed.

  Lemma attr_given_texts : forall i f s a u, base_of (f_ty f) = BSimple s ->
    attr_given x av i f a = OOk u ->
    Forall2 (fun t v => visit_simple x s t = Ok v) (attr_texts f [a]) (map snd u).
  Proof.
    intros i f s a u Hb H. unfold attr_given in H. unfold attr_texts. cbn [flat_map]. rewrite app_nil_r.
    change (snd (flabel ya0 f)) with (field_name f) in H.
    destruct (String.eqb _ _); [|inversion H; constructor].
    assert (Hone : forall t u, obind (attr_item x av (BSimple s) t) (fun v => OOk [(i, v)]) = OOk u ->
      exists v, u = [(i, v)] /\ visit_simple x s t = Ok v).
    { intros t u' Hu. cbn [attr_item] in Hu. destruct (visit_simple x s t); [|discriminate].
      inversion Hu; subst. eauto. }
    destruct (f_ty f) as [b|b|b|b]; cbn [base_of] in *; subst b;
      try (destruct (Hone _ _ H) as (v & -> & Hv); repeat constructor; assumption).
    revert u H. induction (split_ws (at_value a)) as [|t l IH]; intros u H.
    - inversion H; constructor.
    - rewrite ocollect_cons in H. apply obind_ok in H. destruct H as (w & Hw & H).
      apply obind_ok in H. destruct H as (w2 & Hw2 & H). inversion H; subst.
      destruct (Hone _ _ Hw) as (v & -> & Hv). rewrite map_app. cbn [map snd app]. constructor; auto.
  Qed.

  Lemma given_attr_texts : forall fs attrs ca i f s, attrs_given x av fs attrs = OOk ca ->
    nth_error fs i = Some f -> ya_attribute (f_attrs f) = true -> base_of (f_ty f) = BSimple s ->
    Forall2 (fun t v => visit_simple x s t = Ok v) (attr_texts f attrs) (given i ca).
  Proof.
    intros fs attrs ca i f s H Hi Ha Hb. unfold attrs_given in H.
    set (g := fun p => if ya_attribute (f_attrs (snd p)) then ocollect (attr_given x av (fst p) (snd p)) attrs else OOk []) in H.
    (* the contributions of one field *)
    assert (Hone : forall u, ocollect (attr_given x av i f) attrs = OOk u ->
      (forall p, In p u -> fst p = i) /\ Forall2 (fun t v => visit_simple x s t = Ok v) (attr_texts f attrs) (map snd u)).
    { clear H. induction attrs as [|a attrs IH]; intros u Hu.
      - inversion Hu; subst. split; [intros p []|constructor].
      - rewrite ocollect_cons in Hu. apply obind_ok in Hu. destruct Hu as (w & Hw & Hu).
        apply obind_ok in Hu. destruct Hu as (w2 & Hw2 & Hu). inversion Hu; subst.
        destruct (IH w2 Hw2) as [I1 I2]. split.
        + intros p Hp. apply in_app_or in Hp. destruct Hp as [Hp|Hp]; [|auto].
          eapply attr_given_index; eassumption.
        + rewrite map_app. change (attr_texts f (a :: attrs)) with (attr_texts f ([a] ++ attrs)).
          unfold attr_texts. rewrite flat_map_app. apply Forall2_app; [|exact I2].
          eapply attr_given_texts; eassumption. }
    assert (Hsplit : forall l c, NoDup (map fst l) -> In (i, f) l -> ocollect g l = OOk c ->
      (forall j h, In (j, h) l -> nth_error fs j = Some h) ->
      exists u, ocollect (attr_given x av i f) attrs = OOk u /\ given i c = given i u).
    { induction l as [|[j h] l IH]; intros c Hnd Hin Hc Hl; [destruct Hin|].
      rewrite ocollect_cons in Hc. apply obind_ok in Hc. destruct Hc as (w & Hw & Hc).
      apply obind_ok in Hc. destruct Hc as (w2 & Hw2 & Hc). inversion Hc; subst. rewrite given_app.
      cbn [map fst] in Hnd. inversion Hnd as [|? ? Hni Hnd']; subst.
      assert (Hother : forall j h w, g (j, h) = OOk w -> forall p, In p w -> fst p = j).
      { intros j' h' w' Hw' p Hp. unfold g in Hw'. cbn [fst snd] in Hw'.
        destruct (ya_attribute (f_attrs h')); [|inversion Hw'; subst; destruct Hp].
        destruct (ocollect_in _ _ _ _ _ _ Hw' Hp) as (a & u & _ & Hu & Hpu).
        eapply attr_given_index; eassumption. }
      destruct Hin as [Heq|Hin].
      - inversion Heq; subst. unfold g in Hw. cbn [fst snd] in Hw. rewrite Ha in Hw. exists w. split; [exact Hw|].
        assert (given i w2 = []) as ->; [|apply app_nil_r].
        apply given_none. intros p Hp Hpi.
        destruct (ocollect_in _ _ _ _ _ _ Hw2 Hp) as ([j' h'] & u & Hj' & Hu & Hpu).
        pose proof (Hother _ _ _ Hu p Hpu) as Hpj. apply Hni. rewrite <- Hpi, Hpj.
        apply (in_map fst) in Hj'. exact Hj'.
      - destruct (IH w2 Hnd' Hin Hw2) as (u & Hu1 & Hu2).
        { intros j' h' Hj'. apply Hl. right; assumption. }
        exists u. split; [exact Hu1|]. rewrite <- Hu2.
        assert (given i w = []) as ->; [|reflexivity].
        apply given_none. intros p Hp Hpi. pose proof (Hother _ _ _ Hw p Hp) as Hpj. apply Hni.
        rewrite <- Hpj, Hpi. apply (in_map fst) in Hin. exact Hin. }
    destruct (Hsplit (numbered fs) ca) as (u & Hu & ->).
    - unfold numbered. clear. generalize 0 as j. induction fs as [|f fs IH]; intros j; [constructor|].
      rewrite combine_seq_cons. cbn [map fst]. constructor; [|apply IH].
      intros Hin. apply in_map_iff in Hin. destruct Hin as ([k h] & Hk & Hin). cbn in Hk. subst k.
      apply in_combine_l in Hin. apply in_seq in Hin. lia.
    - apply nth_numbered; assumption.
    - exact H.
    - intros j h Hj. apply numbered_in; assumption.
    - destruct (Hone u Hu) as [H1 H2]. rewrite given_all by exact H1. exact H2.
  Qed.

  Lemma decode_attr_values : forall top id td fs n a m kids i f s vs,
    struct_type E id td fs -> nth_error fs i = Some f ->
    ya_attribute (f_attrs f) = true -> ya_text (f_attrs f) = false -> base_of (f_ty f) = BSimple s ->
    decode x E av fv top id (Elem n a m kids) = OOk (VRec vs) ->
    exists l, Forall2 (fun t v => visit_simple x s t = Ok v) (attr_texts f a) l /\ nth_error vs i = collected x f l.
  Proof.
    intros top id td fs n a m kids i f s vs Hs Hi Ha Ht Hb H.
    destruct (decode_struct_ok _ _ _ _ _ _ _ _ _ Hs H) as (ca & ck & cf & ws & _ & Hca & Hck & Hcf & Hf & Heq).
    inversion Heq; subst ws. destruct (fields_result_nth _ _ _ _ _ _ _ _ Hf Hi) as (v & -> & Hv).
    cbn [Nat.add] in Hv. rewrite (given_attribute _ _ _ _ _ _ _ _ _ _ _ Hck Hcf Hi Ha Ht) in Hv.
    exists (given i ca). split; [eapply given_attr_texts; eassumption|].
    symmetry. eapply field_result_collected; eassumption.
  Qed.

  (** *** Text fields *)
  Lemma given_text : forall fs i f s, nth_error fs i = Some f -> ya_text (f_attrs f) = true ->
    (f_ty f = TBase (BSimple SString) \/ f_ty f = TOpt (BSimple SString)) ->
    given i (map (fun j => (j, VStr s)) (text_fields fs)) = [VStr s].
  Proof.
    intros fs i f s Hi Ht Hty. unfold text_fields.
    set (ok := fun p : nat * field => (ya_text (f_attrs (snd p)) &&
       match f_ty (snd p) with TBase (BSimple SString) | TOpt (BSimple SString) => true | _ => false end)%bool).
    assert (Hok : forall j, ok (j, f) = true).
    { intros j. unfold ok. cbn [snd]. rewrite Ht. destruct Hty as [-> | ->]; reflexivity. }
    unfold numbered.
    assert (H : forall l j k, nth_error l k = Some f ->
      given (j + k) (map (fun j => (j, VStr s)) (map fst (filter ok (combine (seq j (List.length l)) l)))) = [VStr s]).
    { clear Hi. induction l as [|h l IH]; intros j k Hk; [destruct k; discriminate|].
      rewrite combine_seq_cons. cbn [filter]. destruct k as [|k]; cbn [nth_error] in Hk.
      - inversion Hk; subst h. rewrite Hok. cbn [map fst]. rewrite Nat.add_0_r.
        match goal with |- given j (?p :: ?r) = _ => change (p :: r) with ([p] ++ r) end.
        rewrite given_app, given_one, Nat.eqb_refl. rewrite given_none; [reflexivity|].
        intros p Hp. apply in_map_iff in Hp. destruct Hp as (q & <- & Hq).
        apply in_map_iff in Hq. destruct Hq as ([q' h'] & <- & Hq). apply filter_In in Hq. destruct Hq as [Hq _].
        apply in_combine_l in Hq. apply in_seq in Hq. cbn. lia.
      - rewrite <- Nat.add_succ_comm. destruct (ok (j, h)); [|apply IH; assumption].
        cbn [map fst]. match goal with |- given _ (?p :: ?r) = _ => change (p :: r) with ([p] ++ r) end.
        rewrite given_app, given_one. replace (Nat.eqb j (S j + k)) with false by (symmetry; apply Nat.eqb_neq; lia).
        apply IH; assumption. }
    apply (H fs 0 i Hi).
  Qed.

  Lemma given_kids_text : forall sub ra fs kids ck i f, ocollect (kid_given x sub ra fs) kids = OOk ck ->
    nth_error fs i = Some f -> ya_text (f_attrs f) = true ->
    (f_ty f = TBase (BSimple SString) \/ f_ty f = TOpt (BSimple SString)) ->
    (forall n a m ks, In (Elem n a m ks) kids -> elabel n <> flabel ra f) ->
    given i ck = texts kids.
  Proof.
    intros sub ra fs kids; induction kids as [|k kids IH]; intros ck i f H Hi Ht Hty Hno.
    - inversion H; reflexivity.
    - rewrite ocollect_cons in H. apply obind_ok in H. destruct H as (u & Hu & H).
      apply obind_ok in H. destruct H as (w & Hw & H). inversion H; subst. rewrite given_app.
      rewrite (IH w i f Hw Hi Ht Hty) by (intros; eapply Hno; right; eassumption).
      destruct k as [n a m ks|s]; cbn [texts flat_map].
      + rewrite given_none; [reflexivity|]. intros p Hp Hpi.
        destruct (kid_given_match _ _ _ _ _ _ Hu Hp) as (f' & H1 & H2). rewrite Hpi in *.
        apply field_for_spec in H2. destruct H2 as (_ & _ & _ & Hl).
        rewrite Hi in H1. inversion H1; subst. eapply Hno; [left; reflexivity|congruence].
      + cbn [kid_given] in Hu. inversion Hu; subst. rewrite (given_text fs i f s Hi Ht Hty). reflexivity.
  Qed.

  Lemma decode_text : forall top id td fs n a m kids i f vs,
    struct_type E id td fs -> nth_error fs i = Some f ->
    ya_text (f_attrs f) = true -> ya_attribute (f_attrs f) = false -> ya_flatten (f_attrs f) = false ->
    (f_ty f = TBase (BSimple SString) \/ f_ty f = TOpt (BSimple SString)) ->
    (forall n a m ks, In (Elem n a m ks) kids -> elabel n <> flabel (t_attrs td) f) ->
    decode x E av fv top id (Elem n a m kids) = OOk (VRec vs) ->
    nth_error vs i = collected x f (texts kids).
  Proof.
    intros top id td fs n a m kids i f vs Hs Hi Ht Ha Hfl Hty Hno H.
    destruct (decode_struct_ok _ _ _ _ _ _ _ _ _ Hs H) as (ca & ck & cf & ws & _ & Hca & Hck & Hcf & Hf & Heq).
    inversion Heq; subst ws. destruct (fields_result_nth _ _ _ _ _ _ _ _ Hf Hi) as (v & -> & Hv).
    cbn [Nat.add] in Hv. rewrite !given_app in Hv.
    rewrite (given_attrs_nil _ _ _ _ _ Hca Hi) in Hv by congruence.
    rewrite (given_flat_nil _ _ _ _ _ Hcf Hi) in Hv by (apply elem_not_flat; auto).
    rewrite (given_kids_text _ _ _ _ _ _ _ Hck Hi Ht Hty Hno) in Hv. rewrite app_nil_r in Hv. cbn [app] in Hv.
    symmetry. eapply field_result_collected; eassumption.
  Qed.

  (** *** Required attribute and text fields *)
  Lemma attrs_given_drop : forall fs a1 b a2 ca i,
    (forall j g, j <> i -> nth_error fs j = Some g -> ya_attribute (f_attrs g) = true ->
       n_local (at_name b) <> field_name g) ->
    attrs_given x av fs (a1 ++ b :: a2) = OOk ca ->
    exists ca', attrs_given x av fs (a1 ++ a2) = OOk ca' /\ forall j, j <> i -> given j ca' = given j ca.
  Proof.
    intros fs a1 b a2 ca i Hne. unfold attrs_given.
    assert (Hin : forall j g, In (j, g) (numbered fs) -> nth_error fs j = Some g) by (intros; apply numbered_in; assumption).
    revert Hin ca. generalize (numbered fs) as l. induction l as [|[j g] l IH]; intros Hin ca H.
    - inversion H; subst. exists []. split; [reflexivity|auto].
    - rewrite ocollect_cons in H. apply obind_ok in H. destruct H as (u & Hu & H).
      apply obind_ok in H. destruct H as (w & Hw & H). inversion H; subst ca. clear H.
      destruct (IH (fun j g Hj => Hin j g (or_intror Hj)) w Hw) as (w' & Hw' & Hg). rewrite ocollect_cons.
      cbn [fst snd] in *. specialize (Hin j g (or_introl eq_refl)).
      enough (exists u', (if ya_attribute (f_attrs g) then ocollect (attr_given x av j g) (a1 ++ a2) else OOk []) = OOk u' /\
                forall l, l <> i -> given l u' = given l u) as (u' & -> & Hu').
      { rewrite Hw'. cbn [obind]. exists (u' ++ w'). split; [reflexivity|].
        intros l0 Hl0. rewrite !given_app, Hu', Hg by assumption. reflexivity. }
      destruct (ya_attribute (f_attrs g)) eqn:Ha; [|exists u; auto].
      rewrite ocollect_app in Hu. apply obind_ok in Hu. destruct Hu as (c1 & Hc1 & Hu).
      rewrite ocollect_cons in Hu. apply obind_ok in Hu. destruct Hu as (c & Hc & Hu).
      apply obind_ok in Hc. destruct Hc as (cb & Hcb & Hc). apply obind_ok in Hc. destruct Hc as (c2 & Hc2 & Hc).
      inversion Hc; subst c. inversion Hu; subst u. exists (c1 ++ c2). split.
      + rewrite ocollect_app, Hc1. cbn [obind]. rewrite Hc2. reflexivity.
      + intros l0 Hl0. rewrite !given_app. f_equal.
        assert (given l0 cb = []) as ->; [|reflexivity].
        destruct (Nat.eq_dec j i) as [->|Hji].
        * apply given_none. intros p Hp. rewrite (attr_given_index _ _ _ _ _ _ _ Hcb Hp). congruence.
        * unfold attr_given in Hcb. change (snd (flabel ya0 g)) with (field_name g) in Hcb.
          destruct (String.eqb _ _) eqn:He; [apply String.eqb_eq in He; exfalso; eapply Hne; eassumption|].
          inversion Hcb; reflexivity.
  Qed.

  Lemma decode_required_attr : forall top id td fs n a1 b a2 m kids i f v,
    struct_type E id td fs -> flattens fs = false -> nth_error fs i = Some f -> missing_value x f = None ->
    unsupplied (t_attrs td) f (a1 ++ a2) kids ->
    (forall j g, j <> i -> nth_error fs j = Some g -> ya_attribute (f_attrs g) = true ->
       n_local (at_name b) <> field_name g) ->
    decode x E av fv top id (Elem n (a1 ++ b :: a2) m kids) = OOk v ->
    decode x E av fv top id (Elem n (a1 ++ a2) m kids) = OErr (f_label f +++ " is a required field of " +++ t_name td).
  Proof.
    intros top id td fs n a1 b a2 m kids i f v Hs Hfl Hi Hmiss Hu Hne H.
    destruct (decode_struct_ok _ _ _ _ _ _ _ _ _ Hs H) as (ca & ck & cf & vs & Hb & Hca & Hck & Hcf & Hf & Heq).
    rewrite flat_given_off in Hcf by assumption. inversion Hcf; subst cf.
    destruct (attrs_given_drop _ _ _ _ _ _ Hne Hca) as (ca' & Hca' & Hg).
    assert (Hcf' : ocollect (flat_given fv (rest_of (t_attrs td) fs n (a1 ++ a2) m kids)) (numbered fs) = OOk []).
    { apply flat_given_off; assumption. }
    rewrite (decode_struct_intro top id td fs n _ m kids ca' ck [] Hs Hb Hca' Hck Hcf').
    rewrite (fields_result_err x (t_name td) fs 0 _ (ca ++ ck ++ []) vs i f
               (f_label f +++ " is a required field of " +++ t_name td)); auto.
    - cbn [Nat.add]. rewrite (unsupplied_given _ _ _ _ _ _ _ _ _ _ _ Hca' Hck Hcf' Hi Hu).
      rewrite field_result_missing, Hmiss. reflexivity.
    - intros l Hl'. rewrite !given_app. f_equal. apply Hg. assumption.
  Qed.

  Lemma decode_required_text : forall top id td fs n a m k1 s k2 i f v,
    struct_type E id td fs -> flattens fs = false -> nth_error fs i = Some f -> missing_value x f = None ->
    unsupplied (t_attrs td) f a (k1 ++ k2) ->
    (forall j g, nth_error fs j = Some g -> ya_text (f_attrs g) = true -> j = i) ->
    decode x E av fv top id (Elem n a m (k1 ++ Txt s :: k2)) = OOk v ->
    decode x E av fv top id (Elem n a m (k1 ++ k2)) = OErr (f_label f +++ " is a required field of " +++ t_name td).
  Proof.
    intros top id td fs n a m k1 s k2 i f v Hs Hfl Hi Hmiss Hu Hone H.
    destruct (decode_struct_ok _ _ _ _ _ _ _ _ _ Hs H) as (ca & ck & cf & vs & Hb & Hca & Hck & Hcf & Hf & Heq).
    rewrite flat_given_off in Hcf by assumption. inversion Hcf; subst cf.
    rewrite ocollect_app in Hck. apply obind_ok in Hck. destruct Hck as (c1 & Hc1 & Hck).
    rewrite ocollect_cons in Hck. apply obind_ok in Hck. destruct Hck as (w & Hw & Hck).
    apply obind_ok in Hw. destruct Hw as (u & Huk & Hw). apply obind_ok in Hw. destruct Hw as (c2 & Hc2 & Hw).
    inversion Hw; subst w. inversion Hck; subst ck. clear Hw Hck.
    assert (Hck : ocollect (kid_given x (decode x E av fv false) (t_attrs td) fs) (k1 ++ k2) = OOk (c1 ++ c2)).
    { rewrite ocollect_app, Hc1. cbn [obind]. rewrite Hc2. reflexivity. }
    assert (Hcf' : ocollect (flat_given fv (rest_of (t_attrs td) fs n a m (k1 ++ k2))) (numbered fs) = OOk []).
    { apply flat_given_off; assumption. }
    rewrite (decode_struct_intro top id td fs n a m (k1 ++ k2) ca (c1 ++ c2) [] Hs Hb Hca Hck Hcf').
    rewrite (fields_result_err x (t_name td) fs 0 _ (ca ++ (c1 ++ u ++ c2) ++ []) vs i f
               (f_label f +++ " is a required field of " +++ t_name td)); auto.
    - cbn [Nat.add]. rewrite (unsupplied_given _ _ _ _ _ _ _ _ _ _ _ Hca Hck Hcf' Hi Hu).
      rewrite field_result_missing, Hmiss. reflexivity.
    - intros l Hl'. rewrite !given_app. do 2 f_equal.
      assert (given l u = []) as ->; [|reflexivity].
      apply given_none. intros p Hp Hpl. cbn [kid_given] in Huk. inversion Huk; subst u.
      apply in_map_iff in Hp. destruct Hp as (j & <- & Hj). cbn [fst] in Hpl. subst j.
      unfold text_fields in Hj. apply in_map_iff in Hj. destruct Hj as ([j g] & Hj1 & Hj2). cbn in Hj1. subst j.
      apply filter_In in Hj2. destruct Hj2 as [Hj2 Hj3]. apply numbered_in in Hj2. cbn in Hj3.
      apply andb_true_iff in Hj3. destruct Hj3 as [Hj3 _]. apply Hl'. apply (Hone l g Hj2 Hj3).
  Qed.
End Decode.
