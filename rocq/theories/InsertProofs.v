(** * Unknown elements and attributes anywhere (C13). *)
From Verif Require Import Str Num Xml XmlText Reader Schema De RunFacts SpecTree TreeFacts TreeProofs
  SpecText TextProofs SpecValue ValueProofs SpecStruct StructProofs StructReads RoundCore SpecInsert.
Open Scope list_scope.

(** ** Reading back *)
Lemma wn_elems : forall l, textless l -> forall k, In k (map wn l) -> is_elem k.
Proof.
  intros l H k Hk. apply in_map_iff in Hk. destruct Hk as ([n a m ks|s] & <- & Hin); [exact I|].
  destruct (H s Hin).
Qed.

Lemma reread_elems_textless : forall st l, textless l -> textless (reread_kids st (map wn l) "").
Proof.
  intros st l H s Hin. rewrite reread_kids_all in Hin by (apply wn_elems; exact H).
  rewrite map_map in Hin. apply in_map_iff in Hin. destruct Hin as ([n a m ks|t] & He & Hin).
  - cbn [wn] in He. rewrite reread_elem in He. discriminate.
  - exact (H t Hin).
Qed.

Lemma reread_kids_app : forall st l r, (forall k, In k r -> is_elem k) -> forall buf,
  reread_kids st (l ++ r) buf = reread_kids st l buf ++ map (reread st) r.
Proof.
  intros st l r H. induction l as [|k l IH]; intros buf; cbn [app reread_kids].
  - apply reread_kids_buf. exact H.
  - destruct k; [|apply IH|apply IH]. rewrite IH, <- app_assoc. reflexivity.
Qed.

(** An element that does not separate texts. *)
Lemma reread_insert : forall st l1 u l2, textless l1 \/ textless l2 -> (exists n a m ks, u = Elem n a m ks) ->
  reread_kids st (map wn (l1 ++ u :: l2)) "" =
    reread_kids st (map wn l1) "" ++ reread st (wn u) :: reread_kids st (map wn l2) "" /\
  reread_kids st (map wn (l1 ++ l2)) "" = reread_kids st (map wn l1) "" ++ reread_kids st (map wn l2) "".
Proof.
  intros st l1 u l2 H (n & a & m & ks & ->). rewrite !map_app. cbn [map]. destruct H as [H|H].
  - pose proof (wn_elems _ H) as He. rewrite !reread_kids_elems by exact He. rewrite (reread_kids_all st (map wn l1)) by exact He.
    split; reflexivity.
  - pose proof (wn_elems _ H) as He. rewrite reread_kids_app.
    2:{ intros k [<-|Hk]; [exact I|apply He; exact Hk]. }
    rewrite (reread_kids_app st (map wn l1) (map wn l2)) by exact He. rewrite (reread_kids_all st (map wn l2)) by exact He.
    split; reflexivity.
Qed.

Lemma ocollect_ext : forall A B (f g : A -> outcome (list B)) l, (forall a, In a l -> f a = g a) -> ocollect f l = ocollect g l.
Proof.
  intros A B f g l. induction l as [|a l IH]; intros H; [reflexivity|]. cbn [ocollect].
  rewrite (H a (or_introl eq_refl)), IH by (intros; apply H; right; assumption). reflexivity.
Qed.

Lemma ofold_app : forall A B (f : B -> A -> outcome B) l1 l2 b,
  ofold f (l1 ++ l2) b = obind (ofold f l1 b) (fun c => ofold f l2 c).
Proof.
  intros A B f l1. induction l1 as [|a l1 IH]; intros l2 b; [reflexivity|]. cbn [app ofold].
  destruct (f b a); cbn [obind]; [apply IH|reflexivity..].
Qed.

Lemma not_variant : forall vs s, (forall v, In v vs -> variant_name v <> s) -> variant_for vs s = None.
Proof.
  intros vs s H. unfold variant_for. destruct (find _ (numbered vs)) as [[i v]|] eqn:Hf; [|reflexivity].
  exfalso. apply find_some in Hf. destruct Hf as [Hin Hv]. cbn [snd] in Hv. apply numbered_in in Hin.
  apply nth_error_In in Hin. destruct (v_body v); try discriminate; apply String.eqb_eq in Hv; exact (H v Hin Hv).
Qed.

Section Insert.
  Variable x : ext.
  Variable E : env.

  Notation decode_at k := (decode x E (attr_value_at x E k) (flat_value_at x E k)).

  (** *** One struct element *)
  Lemma flat_same : forall fv fs r r',
    (forall f id', In f fs -> flat_field f = true -> base_of (f_ty f) = BUser id' ->
       (f_ty f = TBase (BUser id') \/ f_ty f = TOpt (BUser id')) -> fv id' r = fv id' r') ->
    ocollect (flat_given fv r) (numbered fs) = ocollect (flat_given fv r') (numbered fs).
  Proof.
    intros fv fs r r' H. apply ocollect_ext. intros [i f] Hin. apply numbered_in, nth_error_In in Hin. unfold flat_given.
    change (negb (ya_attribute (f_attrs f)) && ya_flatten (f_attrs f))%bool with (flat_field f).
    destruct (flat_field f) eqn:Hf; [|reflexivity].
    specialize (fun id' => H f id' Hin Hf). destruct (f_ty f) as [[|id]|[|id]| |]; try reflexivity;
      rewrite (H id eq_refl); auto.
  Qed.

  Lemma conforms_flat : forall k id td fs n a m kids f id', struct_type E id td fs ->
    Conforms x E k id (Elem n a m kids) -> In f fs -> flat_field f = true ->
    (f_ty f = TBase (BUser id') \/ f_ty f = TOpt (BUser id')) ->
    flat_fine_at x E k id' (Elem n a m (filter (is_left (t_attrs td) fs) kids)).
  Proof.
    intros k id td fs n a m kids f id' Hs Hc Hin Hf Hty. apply (conforms_struct x E k id td fs) in Hc; [|exact Hs].
    destruct Hc as (_ & _ & _ & H). assert (Hfl : flattens fs = true) by (apply existsb_exists; eauto).
    destruct (H Hfl) as [H1 _]. destruct (H1 f Hin Hf) as (j & Hj & Hfine).
    assert (j = id') by (destruct Hty, Hj; congruence). subst. exact Hfine.
  Qed.

  Lemma local_rname : forall st n, n_local (rname st n) = n_local n.
  Proof. intros st n. unfold rname. destruct (n_prefix n); reflexivity. Qed.
  Lemma local_rattr : forall st a, n_local (at_name (rattr st a)) = n_local (at_name a).
  Proof. intros st a. unfold rattr. destruct (n_prefix (at_name a)); reflexivity. Qed.

  Lemma field_for_local : forall ra fs n, (forall f, In f fs -> elem_field f -> field_name f <> n_local n) ->
    field_for ra fs n = None.
  Proof.
    intros ra fs n H. apply field_for_none. intros f Hin Hf He. apply (H f Hin Hf).
    change (field_name f) with (snd (flabel ra f)). rewrite He. reflexivity.
  Qed.

  Lemma payload_alien : forall sub vs cur n a m ks, variant_for vs (n_local n) = None ->
    payload_given x sub vs cur (Elem n a m ks) = OOk cur.
  Proof. intros. cbn [payload_given]. rewrite H. reflexivity. Qed.

  Lemma attrs_noop' : forall av fs a1 b a2,
    (forall f, In f fs -> ya_attribute (f_attrs f) = true -> field_name f <> n_local (at_name b)) ->
    attrs_given x av fs (a1 ++ a2) = attrs_given x av fs (a1 ++ b :: a2).
  Proof. intros av fs a1 b a2 H. symmetry. apply attrs_noop. intros f Hf Ha He. apply (H f Hf Ha). symmetry. exact He. Qed.

  Lemma kids_noop : forall sub ra fs k1 kn ka km kk k2, field_for ra fs kn = None ->
    ocollect (kid_given x sub ra fs) (k1 ++ k2) = ocollect (kid_given x sub ra fs) (k1 ++ Elem kn ka km kk :: k2).
  Proof.
    intros sub ra fs k1 kn ka km kk k2 H. rewrite !ocollect_app. rewrite (ocollect_cons _ _ _ (Elem kn ka km kk)).
    cbn [kid_given]. rewrite H. cbn [obind]. destruct (ocollect _ k1); cbn [obind]; try reflexivity.
    destruct (ocollect _ k2); reflexivity.
  Qed.

  Lemma left_noop : forall ra fs k1 kn ka km kk k2, field_for ra fs kn = None ->
    filter (is_left ra fs) (k1 ++ Elem kn ka km kk :: k2) =
    filter (is_left ra fs) k1 ++ Elem kn ka km kk :: filter (is_left ra fs) k2.
  Proof. intros ra fs k1 kn ka km kk k2 H. rewrite filter_app. cbn [filter is_left]. rewrite H. reflexivity. Qed.

  Lemma filter_textless : forall p l, textless l -> textless (filter p l).
  Proof. intros p l H s Hin. apply filter_In in Hin. exact (H s (proj1 Hin)). Qed.

  (** *** Elements *)
  Lemma indifferent_same : forall k s id, Indifferent E s id ->
    forall top n a m k1 kn ka km kk k2, n_local kn = s -> textless k1 \/ textless k2 ->
    Conforms x E k id (Elem n a m (k1 ++ k2)) -> Conforms x E k id (Elem n a m (k1 ++ Elem kn ka km kk :: k2)) ->
    decode_at k top id (Elem n a m (k1 ++ k2)) = decode_at k top id (Elem n a m (k1 ++ Elem kn ka km kk :: k2)).
  Proof.
    induction k as [k IH] using (well_founded_induction lt_wf).
    intros s id Hi top n a m k1 kn ka km kk k2 Hs Ht Hc Hc'. destruct Hi as [id td fs Hst Hel Hfl|id td vs dflt Htd Hb Hv].
    - assert (Hff : field_for (t_attrs td) fs kn = None) by (apply field_for_local; rewrite Hs; exact Hel).
      rewrite !(decode_struct _ _ _ _ _ _ _ _ _ _ _ _ Hst). unfold contributions.
      rewrite (kids_noop _ _ _ k1 kn ka km kk k2 Hff).
      rewrite (flat_same _ _ _ (rest_of (t_attrs td) fs n a m (k1 ++ Elem kn ka km kk :: k2))); [reflexivity|].
      intros f id' Hin Hf Hb Hty. pose proof (conforms_flat _ _ _ _ _ _ _ _ _ _ Hst Hc Hin Hf Hty) as H1.
      pose proof (conforms_flat _ _ _ _ _ _ _ _ _ _ Hst Hc' Hin Hf Hty) as H2. unfold rest_of.
      destruct k as [|k]; [destruct H1|]. cbn [flat_value_at flat_fine_at] in *. destruct H1 as [_ H1]. destruct H2 as [_ H2].
      rewrite left_noop in * by exact Hff. rewrite filter_app in *. cbn [wn] in *. rewrite (reread_elem _ n) in H1, H2. rewrite !(reread_elem _ n).
      assert (Ht' : textless (filter (is_left (t_attrs td) fs) k1) \/ textless (filter (is_left (t_attrs td) fs) k2))
        by (destruct Ht; [left|right]; apply filter_textless; assumption).
      destruct (reread_insert (declare [] m :: []) (filter (is_left (t_attrs td) fs) k1) (Elem kn ka km kk)
                  (filter (is_left (t_attrs td) fs) k2) Ht' ltac:(eauto)) as [Hr1 Hr2].
      rewrite Hr1 in *. rewrite Hr2 in *. cbn [wn] in *. rewrite (reread_elem _ kn) in *. rewrite !value_of_decode.
      apply (IH k (Nat.lt_succ_diag_r k) s id' (Hfl f id' Hin Hf Hb)); [rewrite local_rname; exact Hs| |exact H1|exact H2].
      destruct Ht'; [left|right]; apply reread_elems_textless; assumption.
    - assert (Hn : variant_for vs (n_local kn) = None) by (apply not_variant; rewrite Hs; exact Hv).
      cbn [decode]. rewrite Htd, Hb. destruct (bad_namespace (t_attrs td) n); [reflexivity|].
      destruct (ya_tag (t_attrs td)); [reflexivity|].
      set (g := payload_given x (decode_at k false) vs).
      assert (Hf : ofold g (k1 ++ k2) None = ofold g (k1 ++ Elem kn ka km kk :: k2) None).
      { rewrite !ofold_app. destruct (ofold g k1 None); cbn [obind]; try reflexivity. cbn [ofold]. unfold g at 2.
        rewrite payload_alien by exact Hn. reflexivity. }
      assert (Hsel : forall l, (forall u, l <> [Txt u]) ->
        match l with [Txt u] => OOk (text_variant vs dflt u) | _ => obind (ofold g l None) (fun o => OOk (or_default dflt o)) end
        = obind (ofold g l None) (fun o => OOk (or_default dflt o))).
      { intros [|[n0 a0 m0 l0|u] [|y l]] H; try reflexivity. destruct (H u eq_refl). }
      rewrite (Hsel (k1 ++ Elem kn ka km kk :: k2)).
      2:{ intros u He. destruct k1 as [|y [|]]; cbn in He; discriminate. }
      rewrite <- Hf.
      destruct (k1 ++ k2) as [|[n0 a0 m0 l0|u] [|y l]] eqn:Hk; try reflexivity.
      assert (Hin : In (Txt u) (k1 ++ Elem kn ka km kk :: k2)).
      { assert (Hin : In (Txt u) (k1 ++ k2)) by (rewrite Hk; left; reflexivity). apply in_app_or in Hin. apply in_or_app.
        destruct Hin; [left|right; right]; assumption. }
      rewrite Conforms_Fits in Hc'. inversion Hc'; subst; try congruence.
      + destruct k1 as [|y [|]]; discriminate.
      + match goal with H : t_body ?t = DEnum ?v _ |- _ => assert (t = td) by congruence; subst t; assert (v = vs) by congruence; subst v end.
        match goal with H : forall c, In c _ -> PayloadFits _ _ _ _ _ c |- _ => specialize (H _ Hin); inversion H; subst end.
        match goal with H : alien _ _ |- _ => inversion H; subst end.
        unfold text_variant. match goal with H : variant_for vs u = None |- _ => rewrite H end.
        unfold g. cbn [ofold payload_given obind or_default]. reflexivity.
      + destruct k1; discriminate.
  Qed.

  (** *** Attributes *)
  Lemma find_noop : forall s (a1 : list attr) b a2, n_local (at_name b) <> s ->
    find (fun c => String.eqb (n_local (at_name c)) s) (a1 ++ a2) =
    find (fun c => String.eqb (n_local (at_name c)) s) (a1 ++ b :: a2).
  Proof.
    intros s a1 b a2 H. induction a1 as [|c a1 IH]; cbn [app find].
    - destruct (String.eqb_spec (n_local (at_name b)) s); [congruence|reflexivity].
    - destruct (String.eqb _ s); [reflexivity|exact IH].
  Qed.

  Lemma careless_same : forall k s id, Careless E s id ->
    forall top n a1 b a2 m kids, n_local (at_name b) = s ->
    Conforms x E k id (Elem n (a1 ++ a2) m kids) -> Conforms x E k id (Elem n (a1 ++ b :: a2) m kids) ->
    decode_at k top id (Elem n (a1 ++ a2) m kids) = decode_at k top id (Elem n (a1 ++ b :: a2) m kids).
  Proof.
    induction k as [k IH] using (well_founded_induction lt_wf).
    intros s id Hi top n a1 b a2 m kids Hs Hc Hc'.
    destruct Hi as [id td fs Hst Hel Hfl|id td vs dflt Htd Hb Hv|id td p Htd Hb].
    - rewrite !(decode_struct _ _ _ _ _ _ _ _ _ _ _ _ Hst). unfold contributions.
      rewrite (attrs_noop' _ fs a1 b a2) by (rewrite Hs; exact Hel).
      rewrite (flat_same _ _ _ (rest_of (t_attrs td) fs n (a1 ++ b :: a2) m kids)); [reflexivity|].
      intros f id' Hin Hf Hb Hty. pose proof (conforms_flat _ _ _ _ _ _ _ _ _ _ Hst Hc Hin Hf Hty) as H1.
      pose proof (conforms_flat _ _ _ _ _ _ _ _ _ _ Hst Hc' Hin Hf Hty) as H2. unfold rest_of.
      destruct k as [|k]; [destruct H1|]. cbn [flat_value_at flat_fine_at] in *. destruct H1 as [_ H1]. destruct H2 as [_ H2].
      cbn [wn] in *. rewrite (reread_elem _ n) in H1, H2. rewrite !(reread_elem _ n). rewrite map_app in H1, H2. rewrite !map_app. cbn [map] in *. rewrite !value_of_decode.
      apply (IH k (Nat.lt_succ_diag_r k) s id' (Hfl f id' Hin Hf Hb)); [rewrite local_rattr; exact Hs|exact H1|exact H2].
    - cbn [decode]. rewrite Htd, Hb. destruct (bad_namespace (t_attrs td) n); [reflexivity|].
      destruct (ya_tag (t_attrs td)) as [tg|]; [|reflexivity].
      rewrite (find_noop tg a1 b a2) by congruence. reflexivity.
    - cbn [decode]. rewrite Htd, Hb. reflexivity.
  Qed.

  (** *** At any depth *)
  Lemma kids_replace : forall sub ra fs k1 c c' k2, kid_given x sub ra fs c = kid_given x sub ra fs c' ->
    ocollect (kid_given x sub ra fs) (k1 ++ c :: k2) = ocollect (kid_given x sub ra fs) (k1 ++ c' :: k2).
  Proof. intros sub ra fs k1 c c' k2 H. rewrite !ocollect_app, (ocollect_cons _ _ _ c), (ocollect_cons _ _ _ c'), H. reflexivity. Qed.

  Lemma left_replace : forall ra fs k1 kn ka km kk ka' kk' k2, field_for ra fs kn <> None ->
    filter (is_left ra fs) (k1 ++ Elem kn ka km kk :: k2) = filter (is_left ra fs) (k1 ++ Elem kn ka' km kk' :: k2).
  Proof.
    intros ra fs k1 kn ka km kk ka' kk' k2 H. rewrite !filter_app. cbn [filter is_left].
    destruct (field_for ra fs kn); [reflexivity|congruence].
  Qed.

  Lemma conforms_kid : forall k id td fs n a m kids kn ka km kk i f id', struct_type E id td fs ->
    Conforms x E k id (Elem n a m kids) -> In (Elem kn ka km kk) kids ->
    field_for (t_attrs td) fs kn = Some (i, f) -> base_of (f_ty f) = BUser id' ->
    Conforms x E k id' (Elem kn ka km kk).
  Proof.
    intros k id td fs n a m kids kn ka km kk i f id' Hs Hc Hin Hff Hb. apply (conforms_struct x E k id td fs) in Hc; [|exact Hs].
    destruct Hc as (_ & _ & H & _). specialize (H _ Hin). inversion H; subst; try congruence.
    rewrite Conforms_Fits. match goal with H1 : field_for _ _ kn = Some (?j, ?g), H2 : Fits _ _ _ _ ?z _ |- _ =>
      assert (g = f) by congruence; subst g; assert (z = id') by congruence; subst z; exact H2 end.
  Qed.

  Theorem inserted_same : forall id t t', Inserted E id t t' -> forall k top,
    Conforms x E k id t -> Conforms x E k id t' -> decode_at k top id t = decode_at k top id t'.
  Proof.
    intros id t t' H. induction H as [id td fs n a m k1 kn ka km kk k2 Hst Hel Hfl Ht
      |id n a1 b a2 m kids Hi
      |id td fs n a m k1 kn ka km kk ka' kk' k2 i f id' Hst Hfi Hl Hb Hins IH
      |id td fs n a m k1 kn ka km kk ka' k2 i f s Hst Hfi Hl Hb
      |id td vs dflt n a m k1 kn ka km kk ka' kk' k2 i fl t id' Htd Hbody Hv Hb Hins IH]; intros k top Hc Hc'.
    - assert (Hff : field_for (t_attrs td) fs kn = None) by (apply field_for_none; exact Hel).
      rewrite !(decode_struct _ _ _ _ _ _ _ _ _ _ _ _ Hst). unfold contributions.
      rewrite (kids_noop _ _ _ k1 kn ka km kk k2 Hff).
      rewrite (flat_same _ _ _ (rest_of (t_attrs td) fs n a m (k1 ++ Elem kn ka km kk :: k2))); [reflexivity|].
      intros f id' Hin Hf Hb Hty. pose proof (conforms_flat _ _ _ _ _ _ _ _ _ _ Hst Hc Hin Hf Hty) as H1.
      pose proof (conforms_flat _ _ _ _ _ _ _ _ _ _ Hst Hc' Hin Hf Hty) as H2. unfold rest_of.
      assert (Hflat : flattens fs = true) by (apply existsb_exists; eauto). specialize (Ht Hflat).
      destruct k as [|k]; [destruct H1|]. cbn [flat_value_at flat_fine_at] in *. destruct H1 as [_ H1]. destruct H2 as [_ H2].
      rewrite left_noop in * by exact Hff. rewrite filter_app in *. cbn [wn] in *. rewrite (reread_elem _ n) in H1, H2. rewrite !(reread_elem _ n).
      assert (Ht' : textless (filter (is_left (t_attrs td) fs) k1) \/ textless (filter (is_left (t_attrs td) fs) k2))
        by (destruct Ht; [left|right]; apply filter_textless; assumption).
      destruct (reread_insert (declare [] m :: []) (filter (is_left (t_attrs td) fs) k1) (Elem kn ka km kk)
                  (filter (is_left (t_attrs td) fs) k2) Ht' ltac:(eauto)) as [Hr1 Hr2].
      rewrite Hr1 in *. rewrite Hr2 in *. cbn [wn] in *. rewrite (reread_elem _ kn) in *. rewrite !value_of_decode.
      apply (indifferent_same k _ id' (Hfl f id' Hin Hf Hb)); [apply local_rname| |exact H1|exact H2].
      destruct Ht'; [left|right]; apply reread_elems_textless; assumption.
    - eapply careless_same; [exact Hi|reflexivity|exact Hc|exact Hc'].
    - pose proof (field_for_first _ _ _ _ kn Hfi (eq_sym Hl)) as Hff.
      assert (Hk : decode_at k false id' (Elem kn ka km kk) = decode_at k false id' (Elem kn ka' km kk')).
      { apply IH; [apply (conforms_kid k id td fs n a m (k1 ++ Elem kn ka km kk :: k2) kn ka km kk i f id' Hst Hc)
                  |apply (conforms_kid k id td fs n a m (k1 ++ Elem kn ka' km kk' :: k2) kn ka' km kk' i f id' Hst Hc')];
          try assumption; apply in_or_app; right; left; reflexivity. }
      rewrite !(decode_struct _ _ _ _ _ _ _ _ _ _ _ _ Hst). unfold contributions, rest_of.
      rewrite (left_replace _ _ k1 kn ka km kk ka' kk' k2) by congruence.
      rewrite (kids_replace _ _ _ k1 (Elem kn ka km kk) (Elem kn ka' km kk')); [reflexivity|].
      cbn [kid_given]. rewrite Hff, Hb, Hk. reflexivity.
    - pose proof (field_for_first _ _ _ _ kn Hfi (eq_sym Hl)) as Hff.
      rewrite !(decode_struct _ _ _ _ _ _ _ _ _ _ _ _ Hst). unfold contributions, rest_of.
      rewrite (left_replace _ _ k1 kn ka km kk ka' kk k2) by congruence.
      rewrite (kids_replace _ _ _ k1 (Elem kn ka km kk) (Elem kn ka' km kk)); [reflexivity|].
      cbn [kid_given]. rewrite Hff, Hb. reflexivity.
    - assert (Hpf : forall ka0 kk0, Conforms x E k id (Elem n a m (k1 ++ Elem kn ka0 km kk0 :: k2)) -> ya_tag (t_attrs td) = None ->
        Conforms x E k id' (Elem kn ka0 km kk0)).
      { intros ka0 kk0 H Htag. rewrite Conforms_Fits in H. inversion H; subst; try congruence.
        - destruct k1 as [|y [|]]; discriminate.
        - match goal with H : t_body ?t0 = DEnum ?v _ |- _ => assert (t0 = td) by congruence; subst t0; assert (v = vs) by congruence; subst v end.
          match goal with H : forall c, In c _ -> PayloadFits _ _ _ _ _ c |- _ =>
            specialize (H (Elem kn ka0 km kk0) ltac:(apply in_or_app; right; left; reflexivity)); inversion H; subst end; try congruence.
          + rewrite Conforms_Fits. match goal with H1 : variant_for vs (n_local kn) = Some (_, VbNew _ ?t0), H2 : Fits _ _ _ _ ?z _ |- _ =>
              assert (t0 = t) by congruence; subst t0; assert (z = id') by congruence; subst z; exact H2 end.
          + match goal with H1 : alien _ _ |- _ => inversion H1; congruence end. }
      cbn [decode]. rewrite Htd, Hbody. destruct (bad_namespace (t_attrs td) n); [reflexivity|].
      destruct (ya_tag (t_attrs td)) as [tg|]; [reflexivity|].
      assert (Hk : decode_at k false id' (Elem kn ka km kk) = decode_at k false id' (Elem kn ka' km kk')) by (apply IH; apply Hpf; auto).
      assert (Hf : forall cur, payload_given x (decode_at k false) vs cur (Elem kn ka km kk) =
                               payload_given x (decode_at k false) vs cur (Elem kn ka' km kk')).
      { intros cur. cbn [payload_given]. rewrite Hv, Hb, Hk. reflexivity. }
      set (g := payload_given x (decode_at k false) vs) in *.
      assert (Hg : ofold g (k1 ++ Elem kn ka km kk :: k2) None = ofold g (k1 ++ Elem kn ka' km kk' :: k2) None).
      { rewrite !ofold_app. destruct (ofold g k1 None); cbn [obind]; try reflexivity. cbn [ofold]. rewrite Hf. reflexivity. }
      assert (Hm : forall ka0 kk0, (match k1 ++ Elem kn ka0 km kk0 :: k2 with [Txt u] => OOk (text_variant vs dflt u)
        | _ => obind (ofold g (k1 ++ Elem kn ka0 km kk0 :: k2) None) (fun o => OOk (or_default dflt o)) end)
        = obind (ofold g (k1 ++ Elem kn ka0 km kk0 :: k2) None) (fun o => OOk (or_default dflt o))).
      { intros ka0 kk0. destruct k1 as [|[n0 a0 m0 l0|u] [|y l]]; reflexivity. }
      rewrite !Hm, Hg. reflexivity.
  Qed.

  Theorem inserted_read : forall k id d t t' o, Inserted E id t t' ->
    Conforms x E k id t -> Conforms x E k id t' -> (Reads x E id d t' o <-> Reads x E id d t o).
  Proof.
    intros k id d t t' o Hi Hc Hc'. rewrite (read_decode x E k) by exact Hc'. rewrite (read_decode x E k) by exact Hc.
    rewrite (inserted_same _ _ _ Hi k _ Hc Hc'). reflexivity.
  Qed.

  (** *** The root's name *)
  Definition matches {A} (o o' : outcome A) : Prop := o = o' \/ exists e e', o = OErr e /\ o' = OErr e'.
  Lemma matches_refl : forall A (o : outcome A), matches o o.
  Proof. left. reflexivity. Qed.
  Lemma matches_bind : forall A B (o o' : outcome A) (g g' : A -> outcome B), matches o o' ->
    (forall a, matches (g a) (g' a)) -> matches (obind o g) (obind o' g').
  Proof.
    intros A B o o' g g' [->|(e & e' & -> & ->)] H; [|right; exists e, e'; split; reflexivity].
    destruct o'; cbn [obind]; [apply H|apply matches_refl..].
  Qed.
  Lemma matches_collect : forall A B (f g : A -> outcome (list B)) l, (forall a, In a l -> matches (f a) (g a)) ->
    matches (ocollect f l) (ocollect g l).
  Proof.
    intros A B f g l. induction l as [|a l IH]; intros H; [apply matches_refl|]. cbn [ocollect].
    apply matches_bind; [apply H; left; reflexivity|]. intros u. apply matches_bind; [|intros; apply matches_refl].
    apply IH. intros; apply H; right; assumption.
  Qed.

  Lemma bad_namespace_same : forall ra n n', n_ns n = n_ns n' ->
    (bad_namespace ra n = None /\ bad_namespace ra n' = None) \/
    (exists e e', bad_namespace ra n = Some e /\ bad_namespace ra n' = Some e').
  Proof.
    intros ra n n' H. unfold bad_namespace. rewrite H. destruct (n_ns n') as [u|]; [|left; split; reflexivity].
    destruct (ya_prefix ra) as [p|]; [|right; eauto]. destruct (ns_get _ p) as [w|]; [|right; eauto].
    destruct (String.eqb w u); [left; split; reflexivity|right; eauto].
  Qed.

  Lemma renamed_same : forall k id top n n' a m kids, n_prefix n = n_prefix n' -> n_ns n = n_ns n' ->
    Conforms x E k id (Elem n a m kids) -> Conforms x E k id (Elem n' a m kids) ->
    matches (decode_at k top id (Elem n a m kids)) (decode_at k top id (Elem n' a m kids)).
  Proof.
    induction k as [k IH] using (well_founded_induction lt_wf).
    intros id top n n' a m kids Hp Hns Hc Hc'.
    destruct (nth_error E id) as [td|] eqn:Htd; [|cbn [decode]; rewrite Htd; apply matches_refl].
    destruct (t_body td) as [fs|vs dflt|p] eqn:Hb.
    - assert (Hst : struct_type E id td fs) by (split; assumption).
      rewrite !(decode_struct _ _ _ _ _ _ _ _ _ _ _ _ Hst).
      assert (Hz : matches (contributions x E (attr_value_at x E k) (flat_value_at x E k) td fs n a m kids)
                           (contributions x E (attr_value_at x E k) (flat_value_at x E k) td fs n' a m kids)).
      { unfold contributions.
          apply matches_bind; [apply matches_refl|]. intros ca. apply matches_bind; [apply matches_refl|]. intros ck.
          apply matches_bind; [|intros; apply matches_refl]. apply matches_collect. intros [i f] Hin.
          apply numbered_in, nth_error_In in Hin. unfold flat_given.
          change (negb (ya_attribute (f_attrs f)) && ya_flatten (f_attrs f))%bool with (flat_field f).
          destruct (flat_field f) eqn:Hf; [|apply matches_refl].
          assert (Hone : forall id', (f_ty f = TBase (BUser id') \/ f_ty f = TOpt (BUser id')) ->
            matches (flat_value_at x E k id' (rest_of (t_attrs td) fs n a m kids)) (flat_value_at x E k id' (rest_of (t_attrs td) fs n' a m kids))).
          { intros id' Hty. pose proof (conforms_flat _ _ _ _ _ _ _ _ _ _ Hst Hc Hin Hf Hty) as H3.
            pose proof (conforms_flat _ _ _ _ _ _ _ _ _ _ Hst Hc' Hin Hf Hty) as H4. unfold rest_of.
            destruct k as [|k]; [destruct H3|]. cbn [flat_value_at flat_fine_at] in *. destruct H3 as [_ H3]. destruct H4 as [_ H4].
            cbn [wn] in *. rewrite reread_elem in *. rewrite (reread_elem _ n'). rewrite !value_of_decode.
            apply IH; [lia|unfold rname; rewrite Hp; destruct (n_prefix n'); reflexivity
                      |unfold rname; rewrite Hp; destruct (n_prefix n'); reflexivity|exact H3|exact H4]. }
          destruct (f_ty f) as [[|id']|[|id']| |]; try apply matches_refl.
          - apply matches_bind; [apply Hone; auto|intros; apply matches_refl].
          - destruct (Hone id' (or_intror eq_refl)) as [->|(e1 & e2 & -> & ->)]; apply matches_refl. }
      assert (Hr : forall o, matches (obind (contributions x E (attr_value_at x E k) (flat_value_at x E k) td fs n a m kids) o)
                              (obind (contributions x E (attr_value_at x E k) (flat_value_at x E k) td fs n' a m kids) (o : _ -> outcome value)))
        by (intros o; apply matches_bind; [exact Hz|intros; apply matches_refl]).
      destruct top; [|apply Hr].
      destruct (bad_namespace_same (t_attrs td) n n' Hns) as [[H1 H2]|(e & e' & H1 & H2)]; rewrite H1, H2; [apply Hr|].
      right. eauto.
    - cbn [decode]. rewrite Htd, Hb.
      destruct (bad_namespace_same (t_attrs td) n n' Hns) as [[H1 H2]|(e & e' & H1 & H2)]; rewrite H1, H2; [apply matches_refl|].
      right. eauto.
    - cbn [decode]. rewrite Htd, Hb. apply matches_refl.
  Qed.

  Theorem renamed_read : forall k id d n n' a m kids v, n_prefix n = n_prefix n' -> n_ns n = n_ns n' ->
    Conforms x E k id (Elem n a m kids) -> Conforms x E k id (Elem n' a m kids) ->
    Reads x E id d (Elem n a m kids) (OOk v) -> Reads x E id d (Elem n' a m kids) (OOk v).
  Proof.
    intros k id d n n' a m kids v Hp Hns Hc Hc' Hr. apply (read_decode x E k) in Hr; [|exact Hc].
    apply (read_decode x E k); [exact Hc'|].
    destruct (renamed_same k id (Nat.eqb d 0) n n' a m kids Hp Hns Hc Hc') as [<-|(e & e' & H1 & _)]; [exact Hr|congruence].
  Qed.

  (** *** Missing attributes *)
  Theorem required_attr_read : forall k id td fs d n a1 b a2 m kids i f v,
    struct_type E id td fs -> nth_error fs i = Some f -> missing_value x f = None ->
    unsupplied (t_attrs td) f (a1 ++ a2) kids ->
    (forall j g, j <> i -> nth_error fs j = Some g -> ya_attribute (f_attrs g) = true ->
       n_local (at_name b) <> field_name g) ->
    (forall g id', In g fs -> flat_field g = true -> base_of (f_ty g) = BUser id' -> Careless E (n_local (at_name b)) id') ->
    Conforms x E k id (Elem n (a1 ++ b :: a2) m kids) -> Conforms x E k id (Elem n (a1 ++ a2) m kids) ->
    Reads x E id d (Elem n (a1 ++ b :: a2) m kids) (OOk v) ->
    Reads x E id d (Elem n (a1 ++ a2) m kids) (OErr (f_label f +++ " is a required field of " +++ t_name td)).
  Proof.
    intros k id td fs d n a1 b a2 m kids i f v Hs Hi Hmiss Hu Hne Hca Hc Hc' Hr.
    apply (read_decode x E k) in Hr; [|exact Hc]. apply (read_decode x E k); [exact Hc'|].
    destruct (decode_struct_ok _ _ _ _ _ _ _ _ _ _ _ _ _ Hs Hr) as (ca & ck & cf & vs & Hb & Hat & Hck & Hcf & Hf & Heq).
    destruct (attrs_given_drop _ _ _ _ _ _ _ _ Hne Hat) as (ca' & Hca' & Hg).
    rewrite (flat_same _ _ _ (rest_of (t_attrs td) fs n (a1 ++ a2) m kids)) in Hcf.
    2:{ intros g id' Hin Hfl Hbt Hty. pose proof (conforms_flat _ _ _ _ _ _ _ _ _ _ Hs Hc Hin Hfl Hty) as H1.
        pose proof (conforms_flat _ _ _ _ _ _ _ _ _ _ Hs Hc' Hin Hfl Hty) as H2. unfold rest_of.
        destruct k as [|k]; [destruct H1|]. cbn [flat_value_at flat_fine_at] in *. destruct H1 as [_ H1]. destruct H2 as [_ H2].
        cbn [wn] in *. rewrite (reread_elem _ n) in H1, H2. rewrite !(reread_elem _ n). rewrite map_app in H1, H2. rewrite !map_app.
        cbn [map] in *. rewrite !value_of_decode. symmetry.
        apply (careless_same k _ id' (Hca g id' Hin Hfl Hbt)); [apply local_rattr|exact H2|exact H1]. }
    rewrite (decode_struct_intro _ _ _ _ _ id td fs n _ m kids ca' ck cf Hs Hb Hca' Hck Hcf).
    rewrite (fields_result_err x (t_name td) fs 0 _ (ca ++ ck ++ cf) vs i f
               (f_label f +++ " is a required field of " +++ t_name td)); auto.
    - cbn [Nat.add]. rewrite (unsupplied_given _ _ _ _ _ _ _ _ _ _ _ _ _ _ _ Hca' Hck Hcf Hi Hu).
      rewrite field_result_missing, Hmiss. reflexivity.
    - intros l Hl'. rewrite !given_app. f_equal. apply Hg. assumption.
  Qed.
End Insert.
