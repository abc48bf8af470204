(** * From the content of a value to its element (round trips with flattened
      fields). *)
From Verif Require Import Str Num Xml XmlText Reader Schema De SpecTree SpecText SpecNum SpecTyped SpecStruct SpecSer SpecValue
  SpecEnc SpecRound SpecRoundFlat TreeFacts TreeProofs TextProofs ValueProofs StructProofs StructReads EncProofs SerProofs
  RoundNames RoundTexts RoundCore RoundFields RoundProofs SpecAlike InsertProofs AlikeTrees RewriteProofs RoundFlatCtx RoundFlatFields.
Open Scope list_scope.

Lemma means_resolve : forall E st q l, consistent E -> within (bindings E) st -> means (bindings E) st q l -> resolve (bindings E) (qname q) = l.
Proof.
  intros E st q [u t] [Hf Hd] Hw (_ & Hl & Hp). unfold resolve. cbn [fst snd] in *. rewrite Hl. f_equal.
  assert (Hin : forall p, nss_get st p = Some u -> ns_get (bindings E) p = Some u).
  { intros p Hg. apply (within_agree _ _ Hw) in Hg. destruct (ns_in_get _ _ _ Hg) as [v Hv]. rewrite Hv. f_equal.
    apply (Hf p); [apply ns_get_in; exact Hv|exact Hg]. }
  destruct (n_prefix (qname q)) as [p|].
  - rewrite (Hin p) by apply Hp. reflexivity.
  - destruct Hp as [[Hp _]|[-> Hp]]; [rewrite (Hin _ Hp); reflexivity|].
    destruct (ns_get (bindings E) "") as [v|] eqn:Hv; [|reflexivity]. exfalso. apply (Hp v). apply ns_get_in. exact Hv.
Qed.

Lemma nodup_repr : forall st a, (forall b, In b a -> good_attr st b) -> NoDup (map (fun b => n_local (at_name b)) a) ->
  NoDup (map (fun b => name_repr (at_name b)) a).
Proof.
  intros st. induction a as [|b a IH]; intros Hg Hd; [constructor|]. cbn [map] in *. inversion Hd as [|? ? Hn Hd']; subst. constructor.
  - intros Hin. apply in_map_iff in Hin. destruct Hin as (c & Hc & Hin). apply Hn. apply in_map_iff. exists c. split; [|exact Hin].
    apply (repr_local st c b); [apply Hg; right; exact Hin|apply Hg; left; reflexivity|exact Hc].
  - apply IH; [intros c Hc; apply Hg; right; exact Hc|exact Hd'].
Qed.

Section Elem.
  Variable x : ext.
  Variable E : env.
  Hypothesis Hok : all_ok E.
  Notation B := (bindings E).

  Let Hcons : consistent E := proj1 Hok.
  Let Hfun := proj1 Hcons.
  Lemma B_good : forall p u, In (p, u) B -> good_decl (p, u).
  Proof. intros p u H. apply (proj2 Hcons p u H). Qed.

  (** What is written for the content of a value is neat. *)
  Definition Wrote (id : nat) (w : value) (p : list wnode) (A : list attr) (st : nsstack) : Prop :=
    (forall k, In k p -> Neat B st k) /\ ntexts p <= 1 /\
    (spread E id w -> (forall td fs, nth_error E id = Some td -> t_body td <> DStruct fs) -> forall k, In k p -> is_elem k) /\
    (forall a, In a A -> good_attr st a /\ legal_attr (at_value a) = true /\ claims_attr E id (n_local (at_name a))) /\
    NoDup (map (fun a => n_local (at_name a)) A).
  (** It is read back from any element with this content, among other content
      that the type has no use for. *)
  Definition Returns (L id : nat) (w : value) (p : list wnode) (A : list attr) (st : nsstack) : Prop :=
    forall o n a m K top, Rewritable o (Elem n a m K) -> takes E id (elabel n) -> n_ns n <> Some "" ->
    (top = true -> forall td fs, struct_type E id td fs -> bad_namespace (t_attrs td) n = None) ->
    Ctx (fun k => spread E id w /\ ignored E id k) (flat_map (rkid st) p) K ->
    (forall l, claims_attr E id l -> values_of l a = values_of l A) ->
    Conforms x E (S L) id (Elem n a m K) /\ value_of x E (S L) top id (Elem n a m K) = OOk w.
  Definition start_data (b : bool) (id : nat) (w : value) (A : list attr) (M : nsmap) : Prop :=
    if b then A = [] /\ M = [] else encode_attrs x E id w = Some (A, M).
  Definition content_works (w : value) : Prop := forall L, height w <= L -> forall b id p A M st,
    Lasts x E b id w -> encode x E id w Inside = Some p -> start_data b id w A M -> within B st ->
    (forall q u, In (q, u) M -> nss_get st q = Some u) ->
    Wrote id w p A st /\ Returns L id w p A st.

  Lemma start_bound : forall b id w A M, start_data b id w A M -> forall pu, In pu M -> In pu B.
  Proof.
    intros b id w A M H. destruct b; cbn [start_data] in H; [destruct H as [_ ->]; intros ? []|]. apply (attrs_bound x E w id A M H).
  Qed.
  Lemma start_scope : forall M st, within B st -> (forall pu, In pu M -> In pu B) ->
    within B (declare st M :: st) /\ forall q u, In (q, u) M -> nss_get (declare st M :: st) q = Some u.
  Proof.
    intros M st Hst HM. split; [apply declare_within; assumption|]. intros q u Hin. apply (declare_has B Hfun); assumption.
  Qed.

  (** An element around the content. *)
  Lemma around : forall L w b id p A M st q l, height w <= L -> content_works w -> Lasts x E b id w ->
    encode x E id w Inside = Some p -> start_data b id w A M -> within B st ->
    means B (declare st M :: st) q l -> takes E id l ->
    let W := WElem (qname q) A M p in let st' := declare st M :: st in
    Neat B st W /\ reread st W = Elem (rname st' (qname q)) (map (rattr st') A) (squash st') (flat_map (rkid st') p) /\
    elabel (rname st' (qname q)) = l /\ n_ns (rname st' (qname q)) <> Some "" /\
    Conforms x E (S L) id (reread st W) /\
    (forall top, (top = true -> forall td fs, struct_type E id td fs -> bad_namespace (t_attrs td) (rname st' (qname q)) = None) ->
       value_of x E (S L) top id (reread st W) = OOk w) /\
    (spread E id w -> (forall td fs, nth_error E id = Some td -> t_body td <> DStruct fs) -> forall s, flat_map (rkid st') p <> [Txt s]).
  Proof.
    intros L w b id p A M st q l Hh Hw Hl Hp Hs Hst Hm Ht W st'. pose proof (start_bound b id w A M Hs) as HM.
    destruct (start_scope M st Hst HM) as [S1 S2]. fold st' in S1, S2.
    destruct (means_label B st' q l S1 Hm) as (L1 & L2 & L3 & _).
    destruct (Hw L Hh b id p A M st' Hl Hp Hs S1 S2) as [(W1 & W2 & W3 & W4 & W5) HR].
    assert (Hneat : Neat B st W).
    { apply n_elem; [exact HM|apply Hm|exact L2| | | |exact W2|exact W1].
      - fold st'. rewrite L1. symmetry. apply (means_resolve E st' q l Hcons S1 Hm).
      - intros a Ha. destruct (W4 a Ha) as (G1 & G2 & _). split; assumption.
      - apply (nodup_repr st'); [intros a Ha; apply (W4 a Ha)|exact W5]. }
    assert (Hre : reread st W = Elem (rname st' (qname q)) (map (rattr st') A) (squash st') (flat_map (rkid st') p)).
    { unfold W. rewrite reread_elem. fold st'. rewrite reread_few; [|left; reflexivity|exact W2]. rewrite empty_node. reflexivity. }
    assert (Hrw : Rewritable (squash st) (reread st W)).
    { apply (neat_rewritable B Hfun B_good W st Hneat Hst). left. reflexivity. }
    assert (Hv : forall l, values_of l (map (rattr st') A) = values_of l A).
    { intros l'. rewrite values_rattr. rewrite <- (map_id (values_of l' A)) at 2. apply map_ext_in. intros t Hin.
      apply values_member in Hin. destruct Hin as (a & Ha & _ & <-). apply untab_legal. apply (W4 a Ha). }
    rewrite Hre in *. split; [exact Hneat|]. split; [reflexivity|]. split; [exact L1|]. split; [exact L3|].
    assert (Htk : takes E id (elabel (rname st' (qname q)))) by (rewrite L1; exact Ht).
    split; [|split].
    - refine (proj1 (HR _ _ _ _ _ false Hrw Htk L3 _ (ctx_refl _ _) (fun l _ => Hv l))). discriminate.
    - intros top Htop. apply (HR _ _ _ _ _ top Hrw Htk L3 Htop (ctx_refl _ _) (fun l _ => Hv l)).
    - intros Hsp Hns s Hx. pose proof (W3 Hsp Hns) as Hel. destruct p as [|k p]; [discriminate|].
      specialize (Hel k (or_introl eq_refl)). destruct k; try destruct Hel. cbn [flat_map rkid app] in Hx. discriminate.
  Qed.

  (** The element of a value. *)
  Lemma under_shape : forall o id w p td, Lasts x E false id w -> nth_error E id = Some td -> encode x E id w (Under o) = Some p ->
    exists A M c, start_data false id w A M /\ encode x E id w Inside = Some c /\
      p = [WElem (qname (opt_default (type_root td) o)) A M c].
  Proof.
    intros o id w p td Hl Htd Hp. rewrite encode_eq in Hp. unfold enc_type in Hp. cbn [start_data].
    rewrite Htd in Hp. pose proof (proj2 Hok id td Htd) as Hf. unfold type_root.
    destruct (t_body td) as [fs|vs d|k] eqn:Hb.
    - rewrite (proj1 Hf) in Hp.
      destruct (enc_start x (encode x E) (encode_attrs x E) td w) as [[[own child] ns]|] eqn:Hs; [|discriminate].
      destruct (enc_content x (encode x E) (Under o) td w) as [ks|] eqn:Hc; [|discriminate]. injection Hp as <-.
      exists (own ++ child), (ns_extend (declared (t_attrs td)) ns), ks.
      split; [rewrite encode_attrs_eq; unfold enc_type_attrs; rewrite Htd, Hb, Hs; reflexivity|]. split; [|reflexivity].
      rewrite encode_eq. unfold enc_type. rewrite Htd, Hb. rewrite <- Hc. unfold enc_content. rewrite Hb. reflexivity.
    - rewrite (proj1 Hf) in Hp.
      destruct (enc_start x (encode x E) (encode_attrs x E) td w) as [[[own child] ns]|] eqn:Hs; [|discriminate].
      destruct (enc_content x (encode x E) (Under o) td w) as [ks|] eqn:Hc; [|discriminate]. injection Hp as <-.
      exists (own ++ child), (ns_extend (declared (t_attrs td)) ns), ks.
      split; [rewrite encode_attrs_eq; unfold enc_type_attrs; rewrite Htd, Hb, Hs; reflexivity|]. split; [|reflexivity].
      rewrite encode_eq. unfold enc_type. rewrite Htd, Hb. rewrite <- Hc. unfold enc_content. rewrite Hb.
      assert (Hv : forall i vr l, w = VVar i l -> nth_error vs i = Some vr ->
        enc_variant x (encode x E) Inside (t_attrs td) vr l = enc_variant x (encode x E) (Under o) (t_attrs td) vr l).
      { intros i vr l -> Hi. inversion Hl as [? ? ? ? ? [Htd' Hb']|? ? td' vs' d' ? vr' Htd' Hb' _ Hv Hu|? td' vs' d' ? ? vr' Htd' Hb' _ Hv Hu
          |? ? td' vs' d' ? vr' fl t v Htd' Hb' Htag Hv Hbody Hfl Hvf _ _|? ? td' k ? Htd' Hb']; subst;
        assert (td' = td) by congruence; subst td'; try congruence;
        assert (vs' = vs) by congruence; subst vs'; assert (vr' = vr) by (destruct Hv; congruence); subst vr'; unfold enc_variant.
        - rewrite Hu. reflexivity.
        - rewrite Hu. reflexivity.
        - rewrite Hbody, Hvf. cbn [orb]. unfold enc_payload. destruct t as [[s|uid]|b|b|b]; reflexivity. }
      destruct w; try reflexivity. destruct (nth_error vs i) as [vr|] eqn:Hi; [|reflexivity]. apply (Hv i vr l eq_refl Hi).
    - apply omap_some in Hp. destruct Hp as (t & Ht & ->). exists [], [], [WTxt t].
      split; [rewrite encode_attrs_eq; unfold enc_type_attrs; rewrite Htd, Hb; reflexivity|].
      split; [|reflexivity]. rewrite encode_eq. unfold enc_type. rewrite Htd, Hb, Ht. reflexivity.
  Qed.

  (** The namespaces of the type are in scope. *)
  Lemma start_holds : forall id td w A M st, nth_error E id = Some td -> (forall k, t_body td <> DPrim k) ->
    start_data false id w A M -> (forall q u, In (q, u) M -> nss_get st q = Some u) -> holds st (t_attrs td).
  Proof.
    intros id td w A M st Htd Hnp Hs HM p u Hin. pose proof (start_bound false id w A M Hs) as Hb.
    cbn [start_data] in Hs. rewrite encode_attrs_eq in Hs. unfold enc_type_attrs in Hs. rewrite Htd in Hs.
    assert (Hx : exists ns, M = ns_extend (declared (t_attrs td)) ns).
    { destruct (t_body td) as [fs|vs d|k] eqn:Hbd; [| |destruct (Hnp k eq_refl)];
        apply omap_some in Hs; destruct Hs as ([[own child] ns] & _ & Hs); injection Hs as _ ->; eauto. }
    destruct Hx as [ns ->].
    destruct (ns_extend_has (own_bindings (t_attrs td)) [] p u Hin) as [v Hv].
    assert (Hd : In (p, v) (ns_extend (declared (t_attrs td)) ns)) by (apply ns_extend_keeps; exact Hv).
    rewrite (HM _ _ Hd). f_equal. apply (Hfun p); [apply Hb; exact Hd|apply (own_bound E id td Htd); exact Hin].
  Qed.
  Lemma no_namespaces : forall st td, ya_namespaces (t_attrs td) = [] -> holds st (t_attrs td).
  Proof. intros st td Hns q u Hin. unfold own_bindings in Hin. rewrite Hns in Hin. destruct Hin. Qed.

  (** Namespace check of types that share an element. *)
  Lemma takes_namespace : forall id id' td n, takes E id (elabel n) -> Spliced E id id' -> nth_error E id' = Some td -> n_ns n <> Some "" ->
    bad_namespace (t_attrs td) n = None.
  Proof.
    intros id id' td n [_ H] Hs Htd Hn. destruct (H id' td Hs Htd) as [_ H1]. apply bad_namespace_none. intros u Hu.
    unfold elabel in H1. rewrite Hu in H1. cbn [fst] in H1. destruct H1 as [->|H1]; [congruence|exact H1].
  Qed.
  Lemma takes_enum : forall id td vs d n, nth_error E id = Some td -> t_body td = DEnum vs d ->
    takes E id (elabel n) -> n_ns n <> Some "" ->
    bad_namespace (t_attrs td) n = None /\ (ya_tag (t_attrs td) = None -> variant_for vs (n_local n) = None).
  Proof.
    intros id td vs d n Htd Hb [Hacc _] Hn. specialize (Hacc td Htd). unfold takes_own in Hacc. rewrite Hb in Hacc. destruct Hacc as [H1 H2]. split.
    - apply bad_namespace_none. intros u Hu. unfold elabel in H1. rewrite Hu in H1. cbn [fst] in H1.
      destruct H1 as [->|H1]; [congruence|exact H1].
    - intros Ht. apply variant_for_none. apply (H2 Ht).
  Qed.

  Lemma value_alike : forall k top id t t' o o', AlikeTree t t' -> Rewritable o t -> Rewritable o' t' ->
    value_of x E k top id t' = value_of x E k top id t.
  Proof.
    intros k top id t t' o o' Ha H1 H2. destruct (rewritable_steady _ _ H1) as [A1 A2]. destruct (rewritable_steady _ _ H2) as [A3 A4].
    rewrite !value_of_decode. symmetry. eapply decode_alike; eassumption.
  Qed.
End Elem.
