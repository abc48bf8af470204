(** * Round trips of documents of types with flattened fields. *)
From Verif Require Import Str Num Xml XmlText Reader Schema De Ser Conform SpecTree SpecText SpecNum SpecTyped SpecStruct SpecSer SpecValue
  SpecEnc SpecRound SpecRoundFlat TreeFacts TreeProofs TextProofs ValueProofs StructProofs StructReads EncProofs SerProofs
  RoundNames RoundTexts RoundCore RoundFields RoundProofs RoundReads RoundText SpecAlike InsertProofs AlikeTrees RewriteProofs RoundFlatCtx RoundFlatFields
  RoundFlatElem RoundFlatEnum RoundFlatOwn RoundFlatStruct RoundFlatRecord PropertiesStruct.
Open Scope list_scope.

Lemma struct_works : forall x E, all_ok E -> forall N, (forall w, height w < N -> content_works x E w) ->
  forall L, N <= S L -> forall b id td fs vs p A M st, struct_type E id td fs ->
  (b = true -> ya_namespaces (t_attrs td) = []) ->
  (flattens fs = true -> Unmixed x E b (t_attrs td) (VRec vs) fs vs) ->
  FieldsLast x E b (VRec vs) fs vs -> (forall v, In v vs -> height v < N) ->
  encode x E id (VRec vs) Inside = Some p -> start_data x E b id (VRec vs) A M -> within (bindings E) st ->
  (forall q u, In (q, u) M -> nss_get st q = Some u) ->
  Wrote E id (VRec vs) p A st /\ Returns x E (S L) id (VRec vs) p A st.
Proof.
  intros x E Hok N IH L HL b id td fs vs p A M st Hs Hns Hum Hf Hvs Hp Hst Hw HM. pose proof (proj1 (proj1 Hok)) as Hfun.
  destruct Hs as [Htd Hb]. rewrite encode_eq in Hp. unfold enc_type in Hp. rewrite Htd, Hb in Hp. unfold enc_content in Hp. rewrite Hb in Hp.
  destruct (parts_of x E b (t_attrs td) (VRec vs) fs vs p Hf Hp) as (Ps & H1 & H2 & -> & H4).
  assert (Hholds : holds st (t_attrs td)).
  { destruct b; [apply no_namespaces; apply Hns; reflexivity|].
    apply (start_holds x E Hok id td (VRec vs) A M st Htd); [intros k Hk; congruence|exact Hst|exact HM]. }
  destruct b; cbn [start_data] in Hst.
  - destruct Hst as [-> ->].
    apply (record_works x E Hok N IH L HL true id td fs vs Ps [] st (conj Htd Hb) Hum Hvs H2 H1 H4 Hw Hholds); [reflexivity|intros; discriminate..].
  - pose proof (attrs_bound x E (VRec vs) id A M Hst) as HMB.
    rewrite encode_attrs_eq in Hst. unfold enc_type_attrs in Hst. rewrite Htd, Hb in Hst. apply omap_some in Hst.
    destruct Hst as ([[own child] ns] & Hst & Hst'). injection Hst' as -> ->. unfold enc_start in Hst. rewrite Hb in Hst.
    destruct (tag_parts x E (t_attrs td) (VRec vs) fs vs own child ns Hst) as (-> & -> & T3 & T4).
    apply (record_works x E Hok N IH L HL false id td fs vs Ps _ st (conj Htd Hb) Hum Hvs H2 H1 H4 Hw Hholds); [reflexivity|intros _; exact T3|].
    intros _ j f v uid Hj Hv Hff Hty. destruct (T4 j f v uid Hj Hv Hff Hty) as (a & m & He & Hm). exists a, m. split; [exact He|].
    intros q u Hin. destruct (Hm q u Hin) as [u' Hu']. destruct (ns_extend_has ns (declared (t_attrs td)) q u' Hu') as [u2 Hu2].
    rewrite (HM q u2 Hu2). f_equal. apply (Hfun q); [apply HMB; exact Hu2|]. apply (attrs_bound x E v uid a m He). exact Hin.
Qed.

Theorem values_last : forall x E, all_ok E -> forall w, content_works x E w.
Proof.
  intros x E Hok. assert (H : forall n w, height w < n -> content_works x E w); [|intros w; apply (H (S (height w))); lia].
  induction n as [|n IH]; intros w Hn; [lia|]. intros L HL b id p A M st Hl Hp Hst Hw HM.
  assert (IHw : forall v, height v < height w -> content_works x E v) by (intros v Hv; apply IH; lia).
  destruct Hl as [b id td fs vs Hs Hns Hum Hf|b id td vs d i vr Htd Hb Htag Hv Hu Hbare Hc|id td vs d tg i vr Htd Hb Htag Hv Hu Hleg
    |b id td vs d i vr fl t v Htd Hb Htag Hv Hbody Hfl Hvf Hns Hpl|b id td k v Htd Hb Hpr].
  - destruct L as [|L]; [cbn in HL; lia|].
    apply (struct_works x E Hok (height (VRec vs)) IHw L HL b id td fs vs p A M st Hs Hns Hum Hf); auto.
    intros v Hv. apply height_in in Hv. cbn. lia.
  - apply (unit_works x E L b id td vs d i vr p A M st); assumption.
  - apply (tagged_works x E Hok L id td vs d tg i vr p A M st); assumption.
  - subst fl. apply (payload_works x E Hok (height (VVar i [v])) IHw L HL b id td vs d i vr t v p A M st); auto.
    cbn. lia.
  - apply (prim_works x E L b id td k v p A M st); assumption.
Qed.

Lemma root_name_means : forall x E id td v A M, all_ok E -> root_ok E id -> nth_error E id = Some td ->
  start_data x E false id v A M ->
  means (bindings E) (declare [] M :: []) (type_root td) (type_label td) /\ takes E id (type_label td).
Proof.
  intros x E id td v A M Hok Hr Htd Hs. destruct (Hr td Htd) as (Hid & Htk & Hrest).
  assert (Hw : within (bindings E) []) by (intros ? ? ? []).
  destruct (start_scope E Hok M [] Hw (start_bound x E false id v A M Hs)) as [S1 S2].
  assert (Hh : (forall k, t_body td <> DPrim k) -> holds (declare [] M :: []) (t_attrs td)).
  { intros Hnp. apply (start_holds x E Hok id td v A M _ Htd Hnp Hs S2). }
  unfold type_root, type_label, root_name in *. destruct (t_body td) as [fs|vs d|k] eqn:Hb.
  - split; [|exact Htk]. apply prefixed_means; [apply Hok|exact S1|apply Hh; congruence|apply (own_bound E id td Htd)|exact Hid|exact Hrest].
  - split; [|exact Htk]. apply prefixed_means; [apply Hok|exact S1|apply Hh; congruence|apply (own_bound E id td Htd)|exact Hid|exact Hrest].
  - split.
    + unfold means. rewrite qname_plain by apply Hid. split; [apply good_plain; exact Hid|]. split; [reflexivity|].
      cbn [n_prefix]. right. split; [reflexivity|exact Hrest].
    + split; [intros td' Htd'; unfold takes_own; assert (td' = td) by congruence; subst; rewrite Hb; exact I|].
      intros id' td' Hsp Htd'. exfalso. assert (Hno : forall i j, Spliced E i j -> i = id -> False); [|apply (Hno id id' Hsp eq_refl)].
      clear -Htd Hb. intros i j Hsp. induction Hsp as [i td' fs f j [H1 H2]|i j j' H1 IH1 H2 IH2]; intros ->; [congruence|]. apply IH1. reflexivity.
Qed.

Lemma flat_round_tree : forall x E id v l, all_ok E -> root_ok E id -> Lasts x E false id v ->
  ser_events x E id v = SOk l ->
  exists w, l = wtree w /\ is_elem w /\ Writable [] w /\ Conforms x E (S (height v)) id (reread [] w) /\
    Reads x E id 0 (reread [] w) (OOk v).
Proof.
  intros x E id v l Hok Hr Hv Hl. pose proof (ser_events_encode x E id v) as He.
  destruct (encode x E id v (Under None)) as [p|] eqn:Hp; [|exfalso; apply (He l); exact Hl].
  assert (Hlp : l = flat_map wtree p) by congruence. clear He.
  destruct (lasts_known x E false id v Hv) as [td Htd].
  destruct (under_shape x E Hok None id v p td Hv Htd Hp) as (A & M & c & Hs & Hc & ->). cbn [opt_default] in *.
  destruct (root_name_means x E id td v A M Hok Hr Htd Hs) as [Hm Ht].
  assert (Hw : within (bindings E) []) by (intros ? ? ? []).
  destruct (around x E Hok (height v) v false id c A M [] (type_root td) (type_label td) (le_n _) (values_last x E Hok v) Hv Hc Hs Hw Hm Ht)
    as (Hn & Hre & Hlab & Hns & Hcf & Hval & _).
  set (w := WElem (qname (type_root td)) A M c) in *.
  exists w. split; [rewrite Hlp; cbn [flat_map]; apply app_nil_r|]. split; [exact I|].
  split; [apply (neat_writable (bindings E) (B_good E Hok) w [] Hn)|]. split; [exact Hcf|].
  assert (Hcf' := Hcf). rewrite Conforms_Fits in Hcf'. apply (proj2 (read_decode x E (S (height v)) id 0 _ _ Hcf)). cbn [Nat.eqb].
  apply Hval. intros _ td' fs [Htd' Hb]. assert (td' = td) by congruence. subst td'.
  apply bad_namespace_none. intros u Hu. unfold elabel, type_label in Hlab. rewrite Hu, Hb in Hlab. unfold root_label in Hlab. injection Hlab as Hlab _.
  unfold uri_of in Hlab. destruct (ya_prefix (t_attrs td)) as [pf|] eqn:Hpf; [|subst u; contradiction].
  exists pf. split; [reflexivity|]. destruct (Hr td Htd) as (_ & _ & Hrt). rewrite Hb, Hpf in Hrt. destruct Hrt as [_ Hrt].
  destruct (ns_get (ya_namespaces (t_attrs td)) pf); [congruence|contradiction].
Qed.

Theorem flat_round_events : forall x E id v l, all_ok E -> root_ok E id -> Lasts x E false id v ->
  ser_events x E id v = SOk l ->
  exists w, l = wtree w /\ is_elem w /\
    exists N, forall fuel, N <= fuel ->
      from_events x E fuel id (Stream (EStartDoc :: flat (reread [] w)) FEnd) = OOk v.
Proof.
  intros x E id v l Hs Hr Hv Hl. destruct (flat_round_tree x E id v l Hs Hr Hv Hl) as (w & -> & He & HW & _ & HR).
  exists w. split; [reflexivity|]. split; [exact He|].
  assert (Hd : document (emit_text (econf_of config0) (wtree w)) (reread [] w)) by (apply text_round_trip; [exact I|exact He|exact HW]).
  destruct (reads_text x E id _ _ _ Hd HR) as [N HN]. exists N. intros fuel Hf. specialize (HN fuel Hf).
  unfold from_str in HN. rewrite Hd in HN. exact HN.
Qed.

Theorem flat_round_text : forall x E c id v s, all_ok E -> root_ok E id -> Lasts x E false id v -> white_indent c ->
  to_string_with_config x E c id v = SOk s -> exists N, forall fuel, N <= fuel -> from_str x E fuel id s = OOk v.
Proof.
  intros x E c id v s Hs Hr Hv Hc H. destruct (to_string_some _ _ _ _ _ _ H) as (l & Hl & ->).
  destruct (flat_round_tree x E id v l Hs Hr Hv Hl) as (w & -> & He & HW & _ & HR).
  apply (reads_text x E id _ (reread [] w)); [|exact HR].
  apply text_round_trip; [apply white_econf; exact Hc|exact He|exact HW].
Qed.
