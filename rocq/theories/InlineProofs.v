(** * A flattened struct is written as its fields would be (C58). *)
From Coq Require Import Permutation.
From Verif Require Import Str Num Xml XmlText Reader Schema De Ser SpecTree SpecText SpecNum SpecTyped SpecStruct SpecSer SpecValue SpecEnc
  TextProofs EncProofs SerProofs SpecRound RoundNames SpecOut OutProofs SpecComplete SpecAlike AlikeProofs SpecInline.
Open Scope list_scope.

Definition binds (m : nsmap) (p : string) : Prop := exists u, In (p, u) m.
Definition same_binds (m m' : nsmap) : Prop := forall p, binds m p <-> binds m' p.

Lemma binds_extend : forall a b p, binds (ns_extend a b) p <-> binds a p \/ binds b p.
Proof.
  intros a b p. split.
  - intros [u Hu]. apply ns_extend_in in Hu. destruct Hu; [left|right]; exists u; assumption.
  - intros [[u Hu]|[u Hu]]; [exists u; apply ns_extend_keeps; exact Hu|exact (ns_extend_has b a p u Hu)].
Qed.
Lemma binds_app : forall a b p, binds (a ++ b) p <-> binds a p \/ binds b p.
Proof.
  intros a b p. split.
  - intros [u Hu]. apply in_app_or in Hu. destruct Hu; [left|right]; exists u; assumption.
  - intros [[u Hu]|[u Hu]]; exists u; apply in_or_app; auto.
Qed.
Lemma binds_nil : forall p, ~ binds [] p.
Proof. intros p [u []]. Qed.
Definition renamed (dn : option string) (ns : nsmap) : nsmap :=
  map (fun pu => (if opt_eqb dn (Some (fst pu)) then "" else fst pu, snd pu)) ns.
Lemma binds_declared : forall ra p, binds (declared ra) p <-> binds (renamed (ya_default_namespace ra) (ya_namespaces ra)) p.
Proof.
  intros ra p. unfold declared. rewrite binds_extend. split; [intros [H|H]; [destruct (binds_nil p H)|exact H]|intros H; right; exact H].
Qed.
Lemma renamed_app : forall dn a b, renamed dn (a ++ b) = renamed dn a ++ renamed dn b.
Proof. intros. apply map_app. Qed.

(** ** Trees that differ in the order of attributes and in declarations *)
Section Same.
  Variable B : nsmap.
  Inductive wsame : wnode -> wnode -> Prop :=
  | ws_txt : forall s, wsame (WTxt s) (WTxt s)
  | ws_cd : forall s, wsame (WCd s) (WCd s)
  | ws_elem : forall n a a' m m' ks ks', Permutation a a' -> same_binds m m' ->
      (forall pu, In pu m -> In pu B) -> (forall pu, In pu m' -> In pu B) ->
      wsames ks ks' -> wsame (WElem n a m ks) (WElem n a' m' ks')
  with wsames : list wnode -> list wnode -> Prop :=
  | ws_nil : wsames [] []
  | ws_cons : forall w w' l l', wsame w w' -> wsames l l' -> wsames (w :: l) (w' :: l').
  Scheme wsame_mut := Minimality for wsame Sort Prop with wsames_mut := Minimality for wsames Sort Prop.
  Combined Scheme wsame_both from wsame_mut, wsames_mut.

  Lemma wsames_app : forall a a' b b', wsames a a' -> wsames b b' -> wsames (a ++ b) (a' ++ b').
  Proof. intros a a' b b' H Hb. induction H; [exact Hb|]. cbn [app]. constructor; assumption. Qed.

  Definition osame (o o' : option (list wnode)) : Prop :=
    match o, o' with Some l, Some l' => wsames l l' | None, None => True | _, _ => False end.
  Lemma osame_app : forall a a' b b', osame a a' -> osame b b' -> osame (oapp a b) (oapp a' b').
  Proof.
    intros [a|] [a'|] [b|] [b'|] Ha Hb; cbn in *; try contradiction; try exact I. apply wsames_app; assumption.
  Qed.
  Lemma osame_elem : forall n o o', osame o o' ->
    osame (omap (fun ks => [WElem n [] [] ks]) o) (omap (fun ks => [WElem n [] [] ks]) o').
  Proof.
    intros n [l|] [l'|] H; cbn in *; try contradiction; [|exact I]. constructor; [|constructor]. constructor; try exact H.
    - constructor.
    - intros p. reflexivity.
    - intros pu [].
    - intros pu [].
  Qed.
  Lemma same_txt : forall t, osame (Some [WTxt t]) (Some [WTxt t]).
  Proof. intros t. cbn. repeat constructor. Qed.
  Lemma same_nil : osame (Some []) (Some []).
  Proof. constructor. Qed.
  Lemma same_simple : forall x q s v, osame (enc_simple x q s v) (enc_simple x q s v).
  Proof.
    intros x q s v. unfold enc_simple. destruct (show_simple x s v) as [t|]; [|exact I]. cbn [omap].
    apply (osame_elem (qname q) (Some [WTxt t]) (Some [WTxt t])), same_txt.
  Qed.
  Lemma same_cd : forall q t, osame (Some [WElem (qname q) [] [] [WCd t]]) (Some [WElem (qname q) [] [] [WCd t]]).
  Proof. intros q t. apply (osame_elem (qname q) (Some [WCd t]) (Some [WCd t])). repeat constructor. Qed.

  (** *** What a reader gets *)
  Hypothesis Hfun : forall p u u', In (p, u) B -> In (p, u') B -> u = u'.

  Definition look (st st' : nsstack) : Prop := within B st /\ within B st' /\ forall p, nss_get st p = nss_get st' p.

  Lemma declare_get : forall st m p, within B st -> (forall pu, In pu m -> In pu B) ->
    (binds m p -> exists u, In (p, u) B /\ nss_get (declare st m :: st) p = Some u) /\
    (~ binds m p -> nss_get (declare st m :: st) p = nss_get st p).
  Proof.
    intros st m p Hs Hm. split.
    - intros [u Hu]. exists u. split; [apply Hm; exact Hu|]. apply (declare_has B Hfun); assumption.
    - intros Hn. cbn [nss_get]. destruct (ns_get (declare st m) p) as [u|] eqn:Hg; [|reflexivity].
      apply ns_get_in, declare_in in Hg. destruct Hn. exists u. exact Hg.
  Qed.
  Lemma binds_dec : forall m p, binds m p \/ ~ binds m p.
  Proof.
    intros m p. destruct (ns_get m p) as [u|] eqn:Hg; [left; exists u; apply ns_get_in; exact Hg|right].
    intros [u Hu]. destruct (ns_in_get _ _ _ Hu). congruence.
  Qed.
  Lemma look_declare : forall st st' m m', look st st' -> same_binds m m' ->
    (forall pu, In pu m -> In pu B) -> (forall pu, In pu m' -> In pu B) -> look (declare st m :: st) (declare st' m' :: st').
  Proof.
    intros st st' m m' (H1 & H2 & H3) Hb Hm Hm'. split; [apply declare_within; assumption|]. split; [apply declare_within; assumption|].
    intros p. destruct (declare_get st m p H1 Hm) as [G1 G2]. destruct (declare_get st' m' p H2 Hm') as [G1' G2'].
    destruct (binds_dec m p) as [Hp|Hp].
    - destruct (G1 Hp) as (u & Hu & ->). destruct (G1' (proj1 (Hb p) Hp)) as (u' & Hu' & ->). f_equal. apply (Hfun p); assumption.
    - rewrite (G2 Hp), G2'; [apply H3|]. intros H. apply Hp, Hb, H.
  Qed.
  Lemma look_prefix : forall st st' p, look st st' -> lookup_prefix st p = lookup_prefix st' p.
  Proof. intros st st' p (_ & _ & H). unfold lookup_prefix. rewrite H. reflexivity. Qed.
  Lemma look_name : forall st st' n, look st st' -> rname st n = rname st' n.
  Proof.
    intros st st' n H. unfold rname. destruct (n_prefix n); [rewrite (look_prefix st st' _ H); reflexivity|].
    destruct H as (_ & _ & ->). reflexivity.
  Qed.
  Lemma look_attr : forall st st' a, look st st' -> rattr st a = rattr st' a.
  Proof. intros st st' a H. unfold rattr. destruct (n_prefix (at_name a)); [rewrite (look_prefix st st' _ H)|]; reflexivity. Qed.

  Lemma text_same : forall buf, Forall2 same_event (flat_map flat (text_node buf)) (flat_map flat (text_node buf)).
  Proof. intros buf. unfold text_node. destruct (str_nonws buf); [|constructor]. cbn. repeat constructor. Qed.

  Lemma same_reread :
    (forall w w', wsame w w' -> forall st st', look st st' -> Forall2 same_event (flat (reread st w)) (flat (reread st' w'))) /\
    (forall l l', wsames l l' -> forall st st' buf, look st st' ->
       Forall2 same_event (flat_map flat (reread_kids st l buf)) (flat_map flat (reread_kids st' l' buf))).
  Proof.
    apply wsame_both.
    - intros s st st' _. cbn. repeat constructor.
    - intros s st st' _. cbn. repeat constructor.
    - intros n a a' m m' ks ks' Ha Hb Hm Hm' _ IH st st' Hl. rewrite !reread_elem. cbn [flat].
      pose proof (look_declare st st' m m' Hl Hb Hm Hm') as Hl'. constructor.
      + cbn [same_event]. split; [rewrite (look_name _ _ n Hl'); split; reflexivity|].
        apply Permutation_map. rewrite (map_ext _ _ (fun t => look_attr _ _ t Hl')). apply Permutation_map. exact Ha.
      + apply Forall2_app; [apply IH; exact Hl'|]. constructor; [|constructor]. cbn [same_event].
        rewrite (look_name _ _ n Hl'). split; reflexivity.
    - intros st st' buf _. cbn [reread_kids]. apply text_same.
    - intros w w' l l' Hw IHw _ IHl st st' buf Hl. cbn [reread_kids].
      destruct Hw; [apply IHl; exact Hl|apply IHl; exact Hl|].
      rewrite !flat_map_app. cbn [flat_map]. apply Forall2_app; [apply text_same|]. apply Forall2_app; [apply IHw; exact Hl|].
      apply IHl. exact Hl.
  Qed.

  Lemma same_legal : (forall w w', wsame w w' -> legal_tree w -> legal_tree w') /\
    (forall l l', wsames l l' -> legal_forest l -> legal_forest l').
  Proof.
    apply wsame_both; try (intros s H; exact H).
    - intros n a a' m m' ks ks' Ha _ _ _ _ IH Hl. apply legal_kids in Hl. destruct Hl as [Hk Hla].
      specialize (IH Hk). intros e He. cbn [wtree] in He. destruct He as [<-|He].
      + intros t Ht. apply Hla. apply (Permutation_in t (Permutation_sym Ha)). exact Ht.
      + apply in_app_or in He. destruct He as [He|[<-|[]]]; [|exact I]. apply in_flat_map in He. destruct He as (w & Hw & He).
        apply (IH w Hw e He).
    - intros _ w [].
    - intros w w' l l' _ IHw _ IHl Hf v [<-|Hv]; [apply IHw, Hf; left; reflexivity|].
      apply IHl; [|exact Hv]. intros u Hu. apply Hf. right. exact Hu.
  Qed.
End Same.

(** ** Written values *)
Scheme Inlined_mut := Minimality for Inlined Sort Prop
  with InlB_mut := Minimality for InlB Sort Prop
  with InlL_mut := Minimality for InlL Sort Prop
  with InlTy_mut := Minimality for InlTy Sort Prop
  with InlBody_mut := Minimality for InlBody Sort Prop
  with InlNamed_mut := Minimality for InlNamed Sort Prop
  with InlFields_mut := Minimality for InlFields Sort Prop.
Combined Scheme Inlined_all from Inlined_mut, InlB_mut, InlL_mut, InlTy_mut, InlBody_mut, InlNamed_mut, InlFields_mut.

Lemma inl_lengths : forall same E E' dn fs vs fs' vs' ns, InlFields same E E' dn fs vs fs' vs' ns -> List.length fs' = List.length vs'.
Proof.
  intros same E E'. fix IH 7. intros dn fs vs fs' vs' ns [].
  - reflexivity.
  - cbn [List.length]. f_equal. eapply IH. eassumption.
  - rewrite !app_length. f_equal; eapply IH; eassumption.
Qed.

Section Written.
  Variable x : ext.
  Variables E E' : env.
  Hypothesis Hskip : skip_by_value x.
  Hypothesis HE : writable_types E.
  Hypothesis HE' : writable_types E'.
  Notation enc := (encode x E).
  Notation enca := (encode_attrs x E).
  Notation enc' := (encode x E').
  Notation enca' := (encode_attrs x E').
  Notation B := (bindings E ++ bindings E').

  Definition tag_same (o o' : option (list attr * nsmap)) : Prop :=
    match o, o' with
    | Some (a, m), Some (a', m') => Permutation a a' /\ same_binds m m'
    | None, None => True
    | _, _ => False
    end.
  (** [ns]: the namespaces that have moved to the type itself. *)
  Definition start_same (dn : option string) (ns : nsmap) (o o' : option (list attr * list attr * nsmap)) : Prop :=
    match o, o' with
    | Some (own, child, m), Some (own', child', m') =>
        Permutation (own ++ child) (own' ++ child') /\ forall p, binds m p <-> binds m' p \/ binds (renamed dn ns) p
    | None, None => True
    | _, _ => False
    end.

  Definition PV (id : nat) (v v' : value) : Prop :=
    (forall h, osame B (enc id v h) (enc' id v' h)) /\ tag_same (enca id v) (enca' id v') /\
    (attribute_type E (BUser id) -> enc id v Inside = enc' id v' Inside).
  Definition PB (b : base) (v v' : value) : Prop :=
    match b with BSimple _ => v = v' | BUser id => PV id v v' end.
  Definition PL (b : base) (l l' : list value) : Prop := Forall2 (PB b) l l'.
  Definition PT (t : fty) (v v' : value) : Prop :=
    match t with
    | TBase b => PB b v v'
    | TOpt b => (v = VOpt None /\ v' = VOpt None) \/ exists w w', v = VOpt (Some w) /\ v' = VOpt (Some w') /\ PB b w w'
    | TVec b => exists l l', v = VVec l /\ v' = VVec l' /\ PL b l l'
    | TOptVec b => (v = VOpt None /\ v' = VOpt None) \/ exists l l', v = VOpt (Some (VVec l)) /\ v' = VOpt (Some (VVec l')) /\ PL b l l'
    end.
  Definition PBody (b : vbody) (l l' : list value) : Prop :=
    (forall h ra vr, v_body vr = b -> osame B (enc_variant x enc h ra vr l) (enc_variant x enc' h ra vr l')) /\
    (b = VbUnit -> l = [] /\ l' = []).
  Definition PN (fs : list field) (vs vs' : list value) : Prop :=
    forall ra, osame B (enc_named_fields x enc ra fs vs) (enc_named_fields x enc' ra fs vs').
  Definition PF (dn : option string) (fs : list field) (vs : list value) (fs' : list field) (vs' : list value) (ns : nsmap) : Prop :=
    forall ra ra' self self', ya_default_namespace ra = dn -> ya_default_namespace ra' = dn ->
    osame B (enc_fields x enc ra self fs vs) (enc_fields x enc' ra' self' fs' vs') /\
    start_same dn ns (enc_tag x enc enca ra self fs vs) (enc_tag x enc' enca' ra' self' fs' vs').

  Lemma same_concat : forall A (f g : A -> option (list wnode)) l l', Forall2 (fun a a' => osame B (f a) (g a')) l l' ->
    osame B (oconcat f l) (oconcat g l').
  Proof. intros A f g l l' H. induction H; [apply same_nil|]. cbn [oconcat]. apply osame_app; assumption. Qed.

  Lemma same_item : forall b v v' h, PB b v v' -> osame B (enc_item x enc b v h) (enc_item x enc' b v' h).
  Proof.
    intros b v v' h H. destruct b as [s|id]; cbn [PB enc_item] in *; [|apply H]. subst v'.
    destruct s; try exact I; match goal with |- osame _ (omap _ ?o) _ => destruct o; [apply same_txt|exact I] end.
  Qed.
  Lemma same_payload_item : forall q b v v', PB b v v' -> osame B (enc_payload_item x enc q b v) (enc_payload_item x enc' q b v').
  Proof.
    intros q b v v' H. unfold enc_payload_item. apply osame_elem.
    pose proof (same_item b v v' Inside H) as Hi. destruct b as [s|id]; [|exact Hi]. cbn [PB] in H. subst v'.
    destruct s; try exact Hi. destruct v; try exact Hi. apply same_txt.
  Qed.
  Lemma same_payload : forall h q fl t v v', PT t v v' -> osame B (enc_payload x enc h q fl t v) (enc_payload x enc' h q fl t v').
  Proof.
    intros h q fl t v v' H. destruct t as [b|b|b|b]; cbn [PT enc_payload] in *.
    - destruct b as [s|id]; [cbn [PB] in H; subst v'; apply same_simple|]. destruct fl; [apply H|apply same_payload_item; exact H].
    - destruct H as [[-> ->]|(w & w' & -> & -> & H)]; [apply same_nil|apply same_payload_item; exact H].
    - destruct H as (l & l' & -> & -> & H). apply same_concat. induction H; constructor; auto. apply same_payload_item. assumption.
    - destruct v, v'; exact I.
  Qed.
  Lemma same_named_field : forall ra f v v', PT (f_ty f) v v' ->
    osame B (enc_named_field x enc ra f v) (enc_named_field x enc' ra f v').
  Proof.
    intros ra f v v' H. unfold enc_named_field. destruct (f_ty f) as [b|b|b|b]; cbn [PT] in H.
    - destruct b as [s|id]; [cbn [PB] in H; subst v'; apply same_simple|apply H].
    - destruct H as [[-> ->]|(w & w' & -> & -> & H)]; apply same_nil.
    - destruct H as (l & l' & -> & -> & H). apply same_concat. induction H; constructor; auto. apply same_item. assumption.
    - destruct H as [[-> ->]|(l & l' & -> & -> & H)]; apply same_nil.
  Qed.

  Lemma same_left : forall self self' v v' f b, kept_alike f v v' -> left_out x self v f b = left_out x self' v' f b.
  Proof.
    intros self self' v v' f b [[H1 H2]| ->]; unfold left_out; [rewrite H1, H2; reflexivity|].
    destruct (ya_skip_if (f_attrs f)) as [g|]; [rewrite (Hskip g self self' v')|]; reflexivity.
  Qed.
  Lemma same_qname : forall ra ra' f, ya_default_namespace ra = ya_default_namespace ra' -> field_qname ra f = field_qname ra' f.
  Proof. intros ra ra' f H. unfold field_qname. rewrite H. reflexivity. Qed.

  Lemma same_field : forall ra ra' self self' f v v', ya_default_namespace ra = ya_default_namespace ra' -> kept_alike f v v' ->
    PT (f_ty f) v v' -> osame B (enc_field x enc ra self f v) (enc_field x enc' ra' self' f v').
  Proof.
    intros ra ra' self self' f v v' Hdn Hk H. unfold enc_field. rewrite (same_qname ra ra' f Hdn), (same_left self self' v v' f true Hk).
    destruct (ya_attribute (f_attrs f)); [apply same_nil|]. destruct (ya_text (f_attrs f)).
    { destruct (f_ty f) as [b|b|b|b]; cbn [PT] in H.
      - destruct b as [s|id]; [cbn [PB] in H; subst v'|exact I]. destruct s; try exact I. destruct v; try exact I. apply same_txt.
      - destruct H as [[-> ->]|(w & w' & -> & -> & H)]; destruct b as [s|id]; try exact I; [destruct s; try exact I; apply same_txt|].
        cbn [PB] in H. subst w'. destruct s; try exact I. destruct w; try exact I. apply same_txt.
      - destruct v, v'; exact I.
      - destruct v, v'; exact I. }
    destruct (left_out x self' v' f true); [apply same_nil|]. destruct (ya_cdata (f_attrs f)).
    { destruct (f_ty f) as [b|b|b|b]; cbn [PT] in H; try (destruct v, v'; exact I).
      destruct b as [s|id]; [cbn [PB] in H; subst v'|exact I]. destruct s; try exact I. destruct v; try exact I. apply same_cd. }
    destruct (f_ty f) as [b|b|b|b]; cbn [PT] in H.
    - destruct b as [s|id]; [cbn [PB] in H; subst v'; apply same_simple|apply H].
    - destruct H as [[-> ->]|(w & w' & -> & -> & H)]; [destruct b; apply same_nil|].
      destruct b as [s|id]; [cbn [PB] in H; subst w'; apply same_simple|apply H].
    - destruct H as (l & l' & -> & -> & H). clear Hk. destruct b as [s|id]; apply same_concat; induction H as [|w w' l l' H]; constructor; auto.
      + cbn [PB] in H. subst w'. apply same_simple.
      + apply H.
    - destruct H as [[-> ->]|(l & l' & -> & -> & H)]; destruct b as [s|id]; try exact I; [apply same_nil|].
      clear Hk. apply same_concat. induction H as [|w w' l l' H]; constructor; auto. cbn [PB] in H. subst w'. apply same_simple.
  Qed.

  Lemma same_show : forall b v v', PB b v v' -> attribute_type E b -> attr_show x enc b v = attr_show x enc' b v'.
  Proof.
    intros b v v' H Ha. destruct b as [s|id]; cbn [PB attr_show] in *; [subst; reflexivity|].
    destruct H as (_ & _ & H). rewrite (H Ha). reflexivity.
  Qed.
  Lemma same_attr : forall ra ra' self self' f v v', ya_default_namespace ra = ya_default_namespace ra' -> kept_alike f v v' ->
    attribute_type E (base_of (f_ty f)) -> PT (f_ty f) v v' -> enc_attr x enc ra self f v = enc_attr x enc' ra' self' f v'.
  Proof.
    intros ra ra' self self' f v v' Hdn Hk Ha H. unfold enc_attr. rewrite (same_qname ra ra' f Hdn), (same_left self self' v v' f false Hk).
    destruct (f_ty f) as [b|b|b|b]; cbn [PT base_of] in *.
    - rewrite (same_show b v v' H Ha). reflexivity.
    - destruct H as [[-> ->]|(w & w' & -> & -> & H)]; [reflexivity|]. rewrite (same_show b w w' H Ha). reflexivity.
    - destruct H as (l & l' & -> & -> & H). reflexivity.
    - destruct H as [[-> ->]|(l & l' & -> & -> & H)]; reflexivity.
  Qed.

  Lemma fields_app : forall e ra self a b va vb, List.length a = List.length va ->
    enc_fields x e ra self (a ++ b) (va ++ vb) = oapp (enc_fields x e ra self a va) (enc_fields x e ra self b vb).
  Proof.
    intros e ra self. induction a as [|f a IH]; intros b [|v va] vb Hl; try discriminate Hl.
    - cbn [app enc_fields oapp]. destruct (enc_fields x e ra self b vb); reflexivity.
    - cbn [app enc_fields]. rewrite IH by (injection Hl as Hl; exact Hl).
      destruct (enc_field x e ra self f v), (enc_fields x e ra self a va), (enc_fields x e ra self b vb); cbn [oapp]; try reflexivity.
      rewrite app_assoc. reflexivity.
  Qed.
  Lemma tag_app : forall e ea ra self a b va vb, List.length a = List.length va ->
    match enc_tag x e ea ra self (a ++ b) (va ++ vb) with
    | Some (own, child, m) => exists o1 c1 m1 o2 c2 m2, enc_tag x e ea ra self a va = Some (o1, c1, m1) /\
        enc_tag x e ea ra self b vb = Some (o2, c2, m2) /\ own = o1 ++ o2 /\ child = c1 ++ c2 /\
        forall p, binds m p <-> binds m1 p \/ binds m2 p
    | None => enc_tag x e ea ra self a va = None \/ enc_tag x e ea ra self b vb = None
    end.
  Proof.
    intros e ea ra self. induction a as [|f a IH]; intros b [|v va] vb Hl; try discriminate Hl.
    - cbn [app enc_tag]. destruct (enc_tag x e ea ra self b vb) as [[[o c] m]|]; [|right; reflexivity].
      exists [], [], [], o, c, m. repeat split; auto. intros [H|H]; [destruct (binds_nil p H)|exact H].
    - cbn [app enc_tag]. specialize (IH b va vb ltac:(injection Hl as Hl; exact Hl)).
      destruct (enc_tag x e ea ra self (a ++ b) (va ++ vb)) as [[[o c] m]|].
      2:{ destruct IH as [->|H]; [left; reflexivity|right; exact H]. }
      destruct IH as (o1 & c1 & m1 & o2 & c2 & m2 & -> & Hb & -> & -> & Hm).
      destruct (ya_attribute (f_attrs f)).
      { destruct (enc_attr x e ra self f v) as [l|]; cbn [omap]; [|left; reflexivity].
        exists (l ++ o1), c1, m1, o2, c2, m2. split; [reflexivity|]. split; [exact Hb|]. split; [apply app_assoc|]. split; [reflexivity|exact Hm]. }
      assert (Hid : exists o3 c3 m3 o4 c4 m4, Some (o1, c1, m1) = Some (o3, c3, m3) /\ enc_tag x e ea ra self b vb = Some (o4, c4, m4) /\
        o1 ++ o2 = o3 ++ o4 /\ c1 ++ c2 = c3 ++ c4 /\ forall p, binds m p <-> binds m3 p \/ binds m4 p).
      { exists o1, c1, m1, o2, c2, m2. auto. }
      destruct (ya_flatten (f_attrs f)); [|exact Hid]. destruct (f_ty f) as [[s|id]|t|t|t]; try exact Hid.
      destruct (ea id v) as [[ca cn]|]; cbn [omap]; [|left; reflexivity].
      exists o1, (ca ++ c1), (ns_extend cn m1), o2, c2, m2. split; [reflexivity|]. split; [exact Hb|]. split; [reflexivity|].
      split; [apply app_assoc|]. intros p. rewrite !binds_extend, Hm. tauto.
  Qed.

  Lemma attrs_under : forall id v a m, enca id v = Some (a, m) -> forall pu, In pu m -> In pu B.
  Proof.
    intros id v a m H pu Hpu. destruct (out_writable x E HE v) as (_ & _ & Ho). apply in_or_app. left. exact (proj1 (Ho id a m H) pu Hpu).
  Qed.
  Lemma attrs_under' : forall id v a m, enca' id v = Some (a, m) -> forall pu, In pu m -> In pu B.
  Proof.
    intros id v a m H pu Hpu. destruct (out_writable x E' HE' v) as (_ & _ & Ho). apply in_or_app. right. exact (proj1 (Ho id a m H) pu Hpu).
  Qed.

  (** The element around a content. *)
  Lemma same_type : forall id td td' v v', nth_error E id = Some td -> nth_error E' id = Some td' ->
    (forall k, t_body td <> DPrim k) -> (forall k, t_body td' <> DPrim k) -> ser_root td = ser_root td' ->
    ya_flatten (t_attrs td') = ya_flatten (t_attrs td) ->
    (forall h, osame B (enc_content x enc h td v) (enc_content x enc' h td' v')) ->
    tag_same (enca id v) (enca' id v') -> forall h, osame B (enc id v h) (enc' id v' h).
  Proof.
    intros id td td' v v' Htd Htd' Hp Hp' Hr Hf Hc Ha h.
    assert (He : enc id v h = match h with
      | Inside => enc_content x enc h td v
      | Under o => if ya_flatten (t_attrs td) then enc_content x enc h td v
         else match enca id v, enc_content x enc h td v with
              | Some (a, m), Some ks => Some [WElem (qname (opt_default (ser_root td) o)) a m ks] | _, _ => None end end).
    { rewrite encode_eq, encode_attrs_eq. unfold enc_type, enc_type_attrs. rewrite Htd.
      destruct (t_body td) as [fs|vs d|k]; [| |destruct (Hp k eq_refl)]; (destruct h as [|o]; [reflexivity|]);
        (destruct (ya_flatten (t_attrs td)); [reflexivity|]); destruct (enc_start x enc enca td v) as [[[o1 c1] m1]|]; reflexivity. }
    assert (He' : enc' id v' h = match h with
      | Inside => enc_content x enc' h td' v'
      | Under o => if ya_flatten (t_attrs td') then enc_content x enc' h td' v'
         else match enca' id v', enc_content x enc' h td' v' with
              | Some (a, m), Some ks => Some [WElem (qname (opt_default (ser_root td') o)) a m ks] | _, _ => None end end).
    { rewrite encode_eq, encode_attrs_eq. unfold enc_type, enc_type_attrs. rewrite Htd'.
      destruct (t_body td') as [fs|vs d|k]; [| |destruct (Hp' k eq_refl)]; (destruct h as [|o]; [reflexivity|]);
        (destruct (ya_flatten (t_attrs td')); [reflexivity|]); destruct (enc_start x enc' enca' td' v') as [[[o1 c1] m1]|]; reflexivity. }
    rewrite He, He', Hf, <- Hr. specialize (Hc h). destruct h as [|o]; [exact Hc|].
    destruct (ya_flatten (t_attrs td)); [exact Hc|].
    pose proof (attrs_under id v) as Hu. pose proof (attrs_under' id v') as Hu'.
    destruct (enca id v) as [[a m]|], (enca' id v') as [[a' m']|]; cbn [tag_same] in Ha; try contradiction; [|exact I].
    destruct (enc_content x enc (Under o) td v) as [ks|], (enc_content x enc' (Under o) td' v') as [ks'|]; cbn [osame] in *; try contradiction; [|exact I].
    destruct Ha as [Ha Hm]. constructor; [|constructor]. constructor; try assumption; [exact (Hu a m eq_refl)|exact (Hu' a' m' eq_refl)].
  Qed.

  Theorem written_alike :
    (forall id v v', Inlined true E E' id v v' -> PV id v v') /\
    (forall b v v', InlB true E E' b v v' -> PB b v v') /\
    (forall b l l', InlL true E E' b l l' -> PL b l l') /\
    (forall t v v', InlTy true E E' t v v' -> PT t v v') /\
    (forall b l l', InlBody true E E' b l l' -> PBody b l l') /\
    (forall fs vs vs', InlNamed true E E' fs vs vs' -> PN fs vs vs') /\
    (forall dn fs vs fs' vs' ns, InlFields true E E' dn fs vs fs' vs' ns -> PF dn fs vs fs' vs' ns).
  Proof.
    apply Inlined_all.
    - (* structs *)
      intros id td td' fs fs' vs vs' ns Htd Htd' Hb Hb' (Hn & Hre & Hpr & Hfl & Hdn & Hns) _ IH.
      destruct (IH (t_attrs td) (t_attrs td') (VRec vs) (VRec vs') eq_refl Hdn) as [Hc Ht].
      assert (Ha : tag_same (enca id (VRec vs)) (enca' id (VRec vs'))).
      { rewrite !encode_attrs_eq. unfold enc_type_attrs. rewrite Htd, Htd', Hb, Hb'. unfold enc_start. rewrite Hb, Hb'.
        destruct (enc_tag x enc enca (t_attrs td) (VRec vs) fs vs) as [[[o c] m]|],
          (enc_tag x enc' enca' (t_attrs td') (VRec vs') fs' vs') as [[[o' c'] m']|]; cbn [start_same] in Ht; try contradiction; [|exact I].
        destruct Ht as [Hperm Hbd]. cbn [omap tag_same]. split; [exact Hperm|]. intros p. rewrite !binds_extend, !binds_declared, Hdn.
        assert (Hr : binds (renamed (ya_default_namespace (t_attrs td)) (ya_namespaces (t_attrs td'))) p <->
          binds (renamed (ya_default_namespace (t_attrs td)) (ya_namespaces (t_attrs td))) p \/ binds (renamed (ya_default_namespace (t_attrs td)) ns) p).
        { rewrite <- binds_app, <- renamed_app. unfold binds, renamed. split; intros [u Hu]; exists u; apply in_map_iff in Hu;
            destruct Hu as (q & Hq & Hin); apply in_map_iff; exists q; (split; [exact Hq|]); apply Hns; exact Hin. }
        rewrite Hr, Hbd. tauto. }
      split; [|split; [exact Ha|]].
      + apply (same_type id td td' (VRec vs) (VRec vs') Htd Htd'); auto.
        * intros k. rewrite Hb. discriminate.
        * intros k. rewrite Hb'. discriminate.
        * unfold ser_root, xml_element_name. rewrite Hn, Hre, Hpr, Hdn. reflexivity.
        * intros h. unfold enc_content. rewrite Hb, Hb'. exact Hc.
      + intros Hat. specialize (Hat id td eq_refl Htd). rewrite Hb in Hat. destruct Hat.
    - (* enums *)
      intros id td vars d i vr l l' Htd Htd' Hb Hvr _ [IH Hu].
      assert (Hc : forall h, osame B (enc_content x enc h td (VVar i l)) (enc_content x enc' h td (VVar i l'))).
      { intros h. unfold enc_content. rewrite Hb, Hvr. apply IH. reflexivity. }
      assert (Ha : tag_same (enca id (VVar i l)) (enca' id (VVar i l'))).
      { rewrite !encode_attrs_eq. unfold enc_type_attrs. rewrite Htd, Htd', Hb. unfold enc_start. rewrite Hb, Hvr.
        cbn [omap tag_same]. split; [apply Permutation_refl|intros p; reflexivity]. }
      split; [|split; [exact Ha|]].
      + apply (same_type id td td (VVar i l) (VVar i l') Htd Htd'); auto; intros k; rewrite Hb; discriminate.
      + intros Hat. specialize (Hat id td eq_refl Htd). rewrite Hb in Hat. specialize (Hat vr (nth_error_In _ _ Hvr)).
        destruct (Hu Hat) as [-> ->]. rewrite !encode_eq. unfold enc_type. rewrite Htd, Htd', Hb. unfold enc_content. rewrite Hb, Hvr.
        unfold enc_variant. rewrite Hat. reflexivity.
    - (* newtypes *)
      intros id td k v Htd Htd' Hb. split; [|split].
      + intros h. rewrite !encode_eq. unfold enc_type. rewrite Htd, Htd', Hb. destruct (show_prim x (t_name td) k v) as [t|]; destruct h as [|o]; try exact I; cbn [omap].
        * apply same_txt.
        * apply (osame_elem B _ (Some [WTxt t]) (Some [WTxt t])), same_txt.
      + rewrite !encode_attrs_eq. unfold enc_type_attrs. rewrite Htd, Htd', Hb. split; [constructor|intros p; reflexivity].
      + intros _. rewrite !encode_eq. unfold enc_type. rewrite Htd, Htd', Hb. reflexivity.
    - reflexivity.
    - intros id v v' _ IH. exact IH.
    - intros b. constructor.
    - intros b v v' l l' _ H1 _ H2. constructor; assumption.
    - intros b v v' _ H. exact H.
    - intros b. left. split; reflexivity.
    - intros b v v' _ H. right. eauto.
    - intros b l l' _ H. exists l, l'. auto.
    - intros b. left. split; reflexivity.
    - intros b l l' _ H. right. eauto.
    - split; [|auto]. intros h ra vr Hb. unfold enc_variant. rewrite Hb. destruct (ya_tag ra); [apply same_nil|apply same_txt].
    - intros fl t v v' _ H. split; [|discriminate]. intros h ra vr Hb. unfold enc_variant. rewrite Hb. apply same_payload. exact H.
    - intros fs vs vs' _ H. split; [|discriminate]. intros h ra vr Hb. unfold enc_variant. rewrite Hb. apply H.
    - intros ra. apply same_nil.
    - intros f fs v v' vs vs' _ H _ IH ra. cbn [enc_named_fields]. apply osame_app; [apply same_named_field; exact H|apply IH].
    - (* no fields *)
      intros dn ra ra' self self' _ _. split; [apply same_nil|]. cbn [enc_tag start_same renamed map]. split; [constructor|].
      intros p. split; [intros H; left; exact H|intros [H|H]; exact H].
    - (* a kept field *)
      intros dn f v v' fs vs fs' vs' ns Hk Hat _ H _ IH ra ra' self self' Hdn Hdn'.
      destruct (IH ra ra' self self' Hdn Hdn') as [Hc Ht]. split.
      + cbn [enc_fields]. apply osame_app; [|exact Hc]. apply same_field; [congruence|exact Hk|exact H].
      + cbn [enc_tag]. destruct (enc_tag x enc enca ra self fs vs) as [[[o c] m]|],
          (enc_tag x enc' enca' ra' self' fs' vs') as [[[o' c'] m']|]; cbn [start_same] in Ht; try contradiction; [|exact I].
        destruct Ht as [Hperm Hbd]. destruct (ya_attribute (f_attrs f)).
        { rewrite (same_attr ra ra' self self' f v v'); [|congruence|exact Hk|exact (Hat eq_refl)|exact H].
          destruct (enc_attr x enc' ra' self' f v') as [l|]; cbn [omap start_same]; [|exact I]. split; [|exact Hbd].
          rewrite <- !app_assoc. apply Permutation_app_head. exact Hperm. }
        assert (Hid : start_same dn ns (Some (o, c, m)) (Some (o', c', m'))) by (split; assumption).
        destruct (ya_flatten (f_attrs f)); [|exact Hid]. destruct (f_ty f) as [[s|id]|t|t|t]; try exact Hid.
        cbn [PT PB] in H. destruct H as (_ & H & _). destruct (enca id v) as [[ca cn]|], (enca' id v') as [[ca' cn']|];
          cbn [tag_same] in H; try contradiction; cbn [omap start_same]; [|exact I].
        destruct H as [Hca Hcn]. split.
        * apply Permutation_trans with (ca ++ o ++ c); [apply Permutation_app_swap_app|].
          apply Permutation_trans with (ca' ++ o' ++ c'); [|apply Permutation_sym, Permutation_app_swap_app || apply Permutation_app_swap_app].
          apply Permutation_app; assumption.
        * intros p. rewrite !binds_extend, Hbd, (Hcn p). tauto.
    - (* a field in place of which its fields stand *)
      intros dn f id td gs vg gs' vg' nsg fs vs fs' vs' ns (Hff & Hsk & Hsi & Hde & Htx & Hcd) Hty Htd Hb Hd Hg IHg _ IH ra ra' self self' Hdn Hdn'.
      specialize (Hd eq_refl). destruct (IH ra ra' self self' Hdn Hdn') as [Hc Ht].
      destruct (IHg (t_attrs td) ra' (VRec vg) self' eq_refl ltac:(congruence)) as [Hcg Htg].
      pose proof (inl_lengths _ _ _ _ _ _ _ _ _ Hg) as Hlen.
      unfold flat_field in Hff. apply andb_true_iff in Hff. destruct Hff as [Hna Hfl]. apply negb_true_iff in Hna. split.
      + cbn [enc_fields]. rewrite fields_app by exact Hlen. apply osame_app; [|exact Hc].
        unfold enc_field. rewrite Hna, Htx, Hcd, Hty, Hfl. unfold left_out. rewrite Hsk, Hsi, Hde. cbn [andb orb].
        rewrite encode_eq. unfold enc_type. rewrite Htd, Hb. unfold enc_content. rewrite Hb. exact Hcg.
      + cbn [enc_tag]. rewrite Hna, Hfl, Hty. rewrite encode_attrs_eq. unfold enc_type_attrs. rewrite Htd, Hb. unfold enc_start. rewrite Hb.
        pose proof (tag_app enc' enca' ra' self' gs' fs' vg' vs' Hlen) as Happ.
        destruct (enc_tag x enc' enca' ra' self' (gs' ++ fs') (vg' ++ vs')) as [[[o' c'] m']|].
        2:{ destruct Happ as [Happ|Happ]; rewrite Happ in *.
            - destruct (enc_tag x enc enca (t_attrs td) (VRec vg) gs vg) as [[[o c] m]|]; cbn [start_same] in Htg; [contradiction|].
              destruct (enc_tag x enc enca ra self fs vs) as [[[o c] m]|]; exact I.
            - destruct (enc_tag x enc enca ra self fs vs) as [[[o c] m]|]; cbn [start_same] in Ht; [contradiction|exact I]. }
        destruct Happ as (o1 & c1 & m1 & o2 & c2 & m2 & E1 & E2 & -> & -> & Hm'). rewrite E1 in Htg. rewrite E2 in Ht.
        destruct (enc_tag x enc enca ra self fs vs) as [[[o c] m]|]; cbn [start_same] in Ht; [|contradiction].
        destruct (enc_tag x enc enca (t_attrs td) (VRec vg) gs vg) as [[[og cg] mg]|]; cbn [start_same] in Htg; [|contradiction].
        destruct Ht as [Hp1 Hb1]. destruct Htg as [Hp2 Hb2]. cbn [omap start_same]. split.
        * apply Permutation_trans with ((og ++ cg) ++ o ++ c); [apply Permutation_app_swap_app|].
          apply Permutation_trans with ((o1 ++ c1) ++ o2 ++ c2); [apply Permutation_app; assumption|].
          rewrite <- !app_assoc. apply Permutation_app_head. apply Permutation_app_swap_app.
        * intros p. rewrite !renamed_app, !binds_app, !binds_extend, Hb1, Hb2, Hm', binds_declared, Hd. tauto.
  Qed.
End Written.

(** ** Start tags of written trees *)
Section Starts.
  Variable x : ext.
  Variable E : env.
  Notation enc := (encode x E).
  Notation enca := (encode_attrs x E).

  (** Every start tag is one without attributes or that of a value. *)
  Definition tags_known (ts : list wnode) : Prop := forall n a m, In (WStart n a m) (flat_map wtree ts) ->
    a = [] \/ exists id v m', enca id v = Some (a, m').
  Definition pok (o : option (list wnode)) : Prop := forall ts, o = Some ts -> tags_known ts.

  Lemma pok_none : pok None.
  Proof. intros ts H. discriminate H. Qed.
  Lemma pok_nil : pok (Some []).
  Proof. intros ts H. injection H as <-. intros n a m []. Qed.
  Lemma pok_txt : forall t, pok (Some [WTxt t]).
  Proof. intros t ts H. injection H as <-. intros n a m [H|[]]. discriminate H. Qed.
  Lemma pok_cd : forall t, pok (Some [WCd t]).
  Proof. intros t ts H. injection H as <-. intros n a m [H|[]]. discriminate H. Qed.
  Lemma pok_app : forall a b, pok a -> pok b -> pok (oapp a b).
  Proof.
    intros a b Ha Hb ts H. apply oapp_some in H. destruct H as (u & w & -> & -> & ->). intros n t m Hin.
    rewrite flat_map_app in Hin. apply in_app_or in Hin. destruct Hin as [Hin|Hin]; [exact (Ha u eq_refl n t m Hin)|exact (Hb w eq_refl n t m Hin)].
  Qed.
  Lemma pok_concat : forall A (f : A -> option (list wnode)) l, (forall a, In a l -> pok (f a)) -> pok (oconcat f l).
  Proof.
    intros A f. induction l as [|a l IH]; intros H; [apply pok_nil|]. cbn [oconcat].
    apply pok_app; [apply H; left; reflexivity|apply IH; intros; apply H; right; assumption].
  Qed.
  Lemma known_elem : forall n a m ks, (a = [] \/ exists id v m', enca id v = Some (a, m')) -> tags_known ks -> tags_known [WElem n a m ks].
  Proof.
    intros n a m ks Ha Hk n' a' m' Hin. cbn [flat_map wtree] in Hin. rewrite app_nil_r in Hin. destruct Hin as [Hin|Hin].
    - injection Hin as <- <- <-. exact Ha.
    - apply in_app_or in Hin. destruct Hin as [Hin|[Hin|[]]]; [exact (Hk n' a' m' Hin)|discriminate Hin].
  Qed.
  Lemma pok_elem : forall n o, pok o -> pok (omap (fun ks => [WElem n [] [] ks]) o).
  Proof.
    intros n o Ho ts H. apply omap_some in H. destruct H as (ks & -> & ->). apply known_elem; [left; reflexivity|exact (Ho ks eq_refl)].
  Qed.
  Lemma pok_show : forall q o, pok (omap (fun t => [text_elem q t]) o).
  Proof. intros q [t|]; [|apply pok_none]. apply (pok_elem (qname q) (Some [WTxt t])), pok_txt. Qed.
  Lemma pok_shown : forall o, pok (omap (fun t => [WTxt t]) o).
  Proof. intros [t|]; [apply pok_txt|apply pok_none]. Qed.

  Variable N : nat.
  Hypothesis IH : forall v, height v < N -> forall id h, pok (enc id v h).

  Lemma pok_item : forall b v h, height v < N -> pok (enc_item x enc b v h).
  Proof. intros b v h Hv. unfold enc_item. destruct b as [s|id]; [|apply IH; exact Hv]. destruct s; solve [apply pok_none|apply pok_shown]. Qed.
  Lemma pok_payload_item : forall q b v, height v < N -> pok (enc_payload_item x enc q b v).
  Proof.
    intros q b v Hv. unfold enc_payload_item. apply pok_elem. pose proof (pok_item b v Inside Hv) as H.
    destruct b as [s|id]; [|exact H]. destruct s; try exact H. destruct v; try exact H. apply pok_txt.
  Qed.
  Lemma pok_payload : forall h q fl t v, height v < N -> pok (enc_payload x enc h q fl t v).
  Proof.
    intros h q fl t v Hv. unfold enc_payload. destruct t as [b|b|b|b].
    - destruct b as [s|id]; [apply pok_show|]. destruct fl; [apply IH; exact Hv|apply pok_payload_item; exact Hv].
    - destruct v as [| | | | |[w|]| | |]; try apply pok_none; [|apply pok_nil]. apply pok_payload_item. cbn [height] in Hv. lia.
    - destruct v as [| | | | | |l| |]; try apply pok_none. apply pok_concat. intros a Ha. apply pok_payload_item.
      pose proof (height_in a l Ha). cbn [height] in Hv. lia.
    - destruct v; apply pok_none.
  Qed.
  Lemma pok_named : forall ra fs vs, (forall v, In v vs -> height v < N) -> pok (enc_named_fields x enc ra fs vs).
  Proof.
    intros ra. induction fs as [|f fs IHf]; intros [|v vs] Hv; try apply pok_none; [apply pok_nil|]. cbn [enc_named_fields].
    apply pok_app; [|apply IHf; intros; apply Hv; right; assumption]. pose proof (Hv v (or_introl eq_refl)) as Hh.
    unfold enc_named_field. destruct (f_ty f) as [b|b|b|b].
    - destruct b as [s|id]; [apply pok_show|apply IH; exact Hh].
    - destruct v; try apply pok_none. apply pok_nil.
    - destruct v as [| | | | | |l| |]; try apply pok_none. apply pok_concat. intros a Ha. apply pok_item.
      pose proof (height_in a l Ha). cbn [height] in Hh. lia.
    - destruct v; try apply pok_none. apply pok_nil.
  Qed.
  Lemma pok_field : forall ra self f v, height v < N -> pok (enc_field x enc ra self f v).
  Proof.
    intros ra self f v Hh. unfold enc_field. destruct (ya_attribute (f_attrs f)); [apply pok_nil|]. destruct (ya_text (f_attrs f)).
    { destruct (f_ty f) as [b|b|b|b]; destruct v as [s'| | | | |[w|]| | |]; try apply pok_none;
        (destruct b as [s|id]; [|apply pok_none]); destruct s; try apply pok_none; try apply pok_txt. destruct w; try apply pok_none; apply pok_txt. }
    destruct (left_out x self v f true); [apply pok_nil|]. destruct (ya_cdata (f_attrs f)).
    { destruct (f_ty f) as [b|b|b|b]; destruct v as [s'| | | | |[w|]| | |]; try apply pok_none;
        (destruct b as [s|id]; [|apply pok_none]); destruct s; try apply pok_none.
      apply (pok_elem _ (Some [WCd s'])), pok_cd. }
    destruct (f_ty f) as [b|b|b|b].
    - destruct b as [s|id]; [apply pok_show|apply IH; exact Hh].
    - destruct v as [| | | | |[w|]| | |]; try (destruct b; apply pok_none); [|destruct b; apply pok_nil].
      destruct b as [s|id]; [apply pok_show|apply IH; cbn [height] in Hh; lia].
    - destruct v as [| | | | | |l| |]; try (destruct b; apply pok_none). destruct b as [s|id]; apply pok_concat; intros a Ha; [apply pok_show|].
      apply IH. pose proof (height_in a l Ha). cbn [height] in Hh. lia.
    - destruct b as [s|id]; [|destruct v; apply pok_none]. destruct v as [| | | | |[w|]| | |]; try apply pok_none; [|apply pok_nil].
      destruct w; try apply pok_none. apply pok_concat. intros a Ha. apply pok_show.
  Qed.
  Lemma pok_fields : forall ra self fs vs, (forall v, In v vs -> height v < N) -> pok (enc_fields x enc ra self fs vs).
  Proof.
    intros ra self. induction fs as [|f fs IHf]; intros [|v vs] Hv; try apply pok_none; [apply pok_nil|]. cbn [enc_fields].
    apply pok_app; [apply pok_field, Hv; left; reflexivity|apply IHf; intros; apply Hv; right; assumption].
  Qed.
  Lemma pok_content : forall h td v, height v <= N -> pok (enc_content x enc h td v).
  Proof.
    intros h td v Hv. unfold enc_content. destruct (t_body td) as [fs|vs d|k]; [| |apply pok_none].
    - destruct v as [| | | | | | |l|]; try apply pok_none. apply pok_fields. intros w Hw. pose proof (height_in w l Hw). cbn [height] in Hv. lia.
    - destruct v as [| | | | | | | |i l]; try apply pok_none. destruct (nth_error vs i) as [vr|]; [|apply pok_none].
      assert (Hl : forall w, In w l -> height w < N) by (intros w Hw; pose proof (height_in w l Hw); cbn [height] in Hv; lia).
      unfold enc_variant. destruct (v_body vr) as [|fl t|fs].
      + destruct l; [|apply pok_none]. destruct (ya_tag (t_attrs td)); [apply pok_nil|apply pok_txt].
      + destruct l as [|w [|]]; try apply pok_none. apply pok_payload, Hl. left. reflexivity.
      + apply pok_named. exact Hl.
  Qed.
  Lemma pok_step : forall v, height v <= N -> forall id h, pok (enc id v h).
  Proof.
    intros v Hv id h. pose proof (encode_attrs_eq x E id v) as Ha. rewrite encode_eq. unfold enc_type. unfold enc_type_attrs in Ha.
    destruct (nth_error E id) as [td|]; [|apply pok_none]. pose proof (fun h => pok_content h td v Hv) as Hc.
    destruct (t_body td) as [fs|vs d|k]; [| |destruct h as [|o]; [apply pok_shown|apply pok_show]].
    all: destruct h as [|o]; [apply Hc|]; destruct (ya_flatten (t_attrs td)); [apply Hc|];
      destruct (enc_start x enc enca td v) as [[[own child] m]|]; [|apply pok_none]; specialize (Hc (Under o));
      destruct (enc_content x enc (Under o) td v) as [ks|]; [|apply pok_none]; intros ts H; injection H as <-;
      apply known_elem; [right; exists id, v; eexists; exact Ha|exact (Hc ks eq_refl)].
  Qed.
End Starts.
Theorem encode_tags : forall x E id v h, pok x E (encode x E id v h).
Proof.
  intros x E. assert (H : forall n v, height v <= n -> forall id h, pok x E (encode x E id v h)).
  { induction n as [|n IH]; intros v Hv; [apply (pok_step x E 0); [intros; lia|exact Hv]|].
    apply (pok_step x E (S n)); [|exact Hv]. intros w Hw. apply IH. lia. }
  intros id v h. apply (H (height v)). lia.
Qed.

(** No two attributes of a written element have the same local name. *)
Lemma written_distinct : forall x E id v w, writable_types E -> encode x E id v (Under None) = Some [w] -> legal_tree w ->
  forall n a m, In (WStart n a m) (wtree w) -> NoDup (map (fun t => n_local (at_name t)) a).
Proof.
  intros x E id v w HE He Hl n a m Hin. pose proof (Hl _ Hin) as Hla. cbn [legal_event] in Hla.
  destruct (encode_tags x E id v (Under None) [w] He n a m) as [->|(id' & v' & m' & Ha)].
  - cbn [flat_map]. rewrite app_nil_r. exact Hin.
  - constructor.
  - destruct (out_writable x E HE v') as (_ & _ & Ho). destruct (Ho id' a m' Ha) as (_ & Hb & Hg).
    apply (Hg [m']); [|exact Hla]. intros td Hp p Hn Hd.
    destruct (ns_get (ya_namespaces (t_attrs td)) p) as [u|] eqn:Hu; [|congruence]. apply ns_get_in, own_in in Hu.
    replace (opt_eqb (ya_default_namespace (t_attrs td)) (Some p)) with false in Hu.
    2:{ symmetry. destruct (opt_eqb (ya_default_namespace (t_attrs td)) (Some p)) eqn:Hq; [|reflexivity]. apply opt_eqb_eq in Hq. contradiction. }
    destruct (Hb td p u Hp Hu) as [z Hz]. apply (nss_get_some [m'] p m' z); [left; reflexivity|exact Hz].
Qed.

Lemma reread_distinct : forall w st, (forall n a m, In (WStart n a m) (wtree w) -> NoDup (map (fun t => n_local (at_name t)) a)) ->
  Forall distinct_locals (flat (reread st w)).
Proof.
  fix IH 1. intros w st H. destruct w as [n a m ks|s|s]; [|constructor; [exact I|constructor]..].
  rewrite reread_elem. cbn [flat]. constructor.
  - cbn [distinct_locals]. rewrite map_map. rewrite (map_ext _ (fun t => n_local (at_name t))).
    + apply (H n a m). left. reflexivity.
    + intros t. unfold rattr. destruct (n_prefix (at_name t)); reflexivity.
  - apply Forall_app. split; [|constructor; [exact I|constructor]].
    assert (Hk : forall n a m, In (WStart n a m) (flat_map wtree ks) -> NoDup (map (fun t => n_local (at_name t)) a)).
    { intros n' a' m' Hin. apply (H n' a' m'). cbn [wtree]. right. apply in_or_app. left. exact Hin. }
    clear H. generalize (declare st m :: st). generalize "".
    assert (Ht : forall buf, Forall distinct_locals (flat_map flat (text_node buf))).
    { intros buf. unfold text_node. destruct (str_nonws buf); cbn; [constructor; [exact I|]|]; constructor. }
    induction ks as [|k ks IHk]; intros buf st'; cbn [reread_kids]; [apply Ht|].
    pose proof (IH k) as IH'.
    assert (Hks : forall n a m, In (WStart n a m) (flat_map wtree ks) -> NoDup (map (fun t => n_local (at_name t)) a)).
    { intros n' a' m' Hin. apply (Hk n' a' m'). cbn [flat_map]. apply in_or_app. right. exact Hin. }
    assert (Hkk : forall n a m, In (WStart n a m) (wtree k) -> NoDup (map (fun t => n_local (at_name t)) a)).
    { intros n' a' m' Hin. apply (Hk n' a' m'). cbn [flat_map]. apply in_or_app. left. exact Hin. }
    specialize (IH' st' Hkk).
    destruct k as [kn ka km kk|s|s]; [|apply IHk; exact Hks..].
    rewrite flat_map_app. cbn [flat_map]. apply Forall_app. split; [apply Ht|]. apply Forall_app. split; [exact IH'|apply IHk; exact Hks].
Qed.

(** ** Texts *)
Lemma markup_doc : forall t, markup (Stream (EStartDoc :: flat t) FEnd) = flat t.
Proof.
  intros t. unfold markup. cbn [s_evs filter].
  assert (H : forall t, Forall (fun e => match e with EStartDoc | EPI _ | EComment _ => false | _ => true end = true) (flat t)).
  { fix IH 1. intros [n a m ks|s]; cbn [flat].
    - constructor; [reflexivity|]. apply Forall_app. split; [|constructor; [reflexivity|constructor]].
      induction ks as [|k ks IHk]; cbn [flat_map]; [constructor|]. apply Forall_app. split; [apply IH|exact IHk].
    - constructor; [reflexivity|constructor]. }
  induction (H t) as [|e l He Hl IHl]; [reflexivity|]. cbn [filter]. rewrite He. f_equal. exact IHl.
Qed.

Theorem inlined_documents : forall x E E' c c' id v v' s,
  writable_types E -> writable_types E' -> own_element E id -> agreed_bindings E E' -> skip_by_value x ->
  Inlined true E E' id v v' ->
  (forall l, ser_events x E id v = SOk l -> forall e, In e l -> legal_event e) ->
  white_indent c -> white_indent c' ->
  to_string_with_config x E c id v = SOk s ->
  exists s', to_string_with_config x E' c' id v' = SOk s' /\ same_document (parse_text s) (parse_text s') /\
    Forall distinct_locals (markup (parse_text s)).
Proof.
  intros x E E' c c' id v v' s HE HE' Ho HB Hskip Hi Hleg Hc Hc' Hs.
  unfold to_string_with_config in Hs. destruct (ser_events x E id v) as [l|m|] eqn:Hl; try discriminate Hs.
  cbn [sbind_pure] in Hs. injection Hs as <-.
  destruct (flat_writable x E id v l HE Ho Hl (Hleg l eq_refl)) as (w & -> & Hel & HW & Henc).
  destruct (written_alike x E E' Hskip HE HE') as (Hall & _). destruct (Hall id v v' Hi) as (Hsame & _).
  specialize (Hsame (Under None)). rewrite Henc in Hsame. pose proof (ser_events_encode x E' id v') as Hse.
  destruct (encode x E' id v' (Under None)) as [ts|] eqn:Hts; cbn [osame] in Hsame; [|contradiction].
  inversion Hsame as [|? w' ? l' Hww Hnil]; subst. inversion Hnil; subst. clear Hsame Hnil.
  cbn [flat_map] in Hse. rewrite app_nil_r in Hse.
  assert (Hlw : legal_tree w) by (intros e He; exact (Hleg _ eq_refl e He)).
  pose proof (proj1 (same_legal (bindings E ++ bindings E')) w w' Hww Hlw) as Hlw'.
  assert (HW' : Writable [] w').
  { destruct (out_writable x E' HE' v') as (Hu & _). apply (Hu id None [] [w'] Hts I); [|left; reflexivity].
    intros w0 [<-|[]]. exact Hlw'. }
  assert (Hel' : is_elem w') by (destruct Hww; exact Hel).
  eexists. split; [unfold to_string_with_config; rewrite Hse; reflexivity|].
  assert (Hwc : forall c, white_indent c -> match ec_indent (econf_of c) with Some ind => all_chars is_ws ind = true | None => True end).
  { intros c0 Hc0. destruct (ec_indent (econf_of c0)) as [ind|] eqn:Hind; [|exact I]. cbn [econf_of ec_indent] in Hind.
    destruct (c_indent c0); [|discriminate]. injection Hind as <-. destruct (c_indent_string c0) as [t|] eqn:Ht; [apply Hc0; exact Ht|reflexivity]. }
  rewrite (text_round_trip _ (Hwc c Hc) w Hel HW), (text_round_trip _ (Hwc c' Hc') w' Hel' HW').
  rewrite !markup_doc. split; [|apply reread_distinct; exact (written_distinct x E id v w HE Henc Hlw)].
  split; [|reflexivity]. rewrite !markup_doc. apply (proj1 (same_reread _ HB) w w' Hww [] []).
  split; [intros ? ? ? []|split; [intros ? ? ? []|intros p; reflexivity]].
Qed.

Theorem inlined_reads : forall x E E' c c' id v v' s,
  writable_types E -> writable_types E' -> own_element E id -> agreed_bindings E E' -> skip_by_value x ->
  Inlined true E E' id v v' ->
  (forall l, ser_events x E id v = SOk l -> forall e, In e l -> legal_event e) ->
  white_indent c -> white_indent c' ->
  to_string_with_config x E c id v = SOk s ->
  exists s', to_string_with_config x E' c' id v' = SOk s' /\
    forall x0 E0 fuel id0, unflattened E0 -> from_str x0 E0 fuel id0 s = from_str x0 E0 fuel id0 s'.
Proof.
  intros x E E' c c' id v v' s HE HE' Ho HB Hk Hi Hl Hc Hc' Hs.
  destruct (inlined_documents x E E' c c' id v v' s HE HE' Ho HB Hk Hi Hl Hc Hc' Hs) as (s' & Hs' & Hd & Hn).
  exists s'. split; [exact Hs'|]. intros x0 E0 fuel id0 Hu. apply same_texts; assumption.
Qed.
