(** * Round trips through text, and fields of special kinds. *)
From Verif Require Import Str Num Xml XmlText Reader Schema De Ser Conform SpecTree SpecText SpecNum SpecTyped SpecStruct SpecSer SpecValue
  SpecEnc SpecRound SpecOut TreeFacts TreeProofs TextProofs ValueProofs StructProofs StructReads EncProofs SerProofs RoundNames RoundTexts RoundCore
  RoundFields RoundProofs RoundReads OutProofs OutTexts FuelProofs PropertiesStruct.
Open Scope list_scope.

Lemma white_econf : forall c, white_indent c ->
  match ec_indent (econf_of c) with Some ind => all_chars is_ws ind = true | None => True end.
Proof.
  intros c H. unfold econf_of. cbn [ec_indent]. destruct (c_indent c); [|exact I].
  unfold opt_default. destruct (c_indent_string c) as [s|] eqn:Hs; [exact (H s Hs)|reflexivity].
Qed.

Lemma to_string_some : forall x E c id v s, to_string_with_config x E c id v = SOk s ->
  exists l, ser_events x E id v = SOk l /\ s = emit_text (econf_of c) l.
Proof.
  intros x E c id v s H. unfold to_string_with_config, sbind_pure in H.
  destruct (ser_events x E id v) as [l| |]; [|discriminate|discriminate]. injection H as <-. eauto.
Qed.

Lemma round_events : forall x E id v l, supported E -> rootable E id -> Survives x E false id v ->
  ser_events x E id v = SOk l ->
  exists w, l = wtree w /\ is_elem w /\
    exists N, forall fuel, N <= fuel ->
      from_events x E fuel id (Stream (EStartDoc :: flat (reread [] w)) FEnd) = OOk v.
Proof.
  intros x E id v l Hs Hr Hv Hl. destruct (round_tree x E id v l Hs Hr Hv Hl) as (w & -> & He & HW & _ & HR).
  exists w. split; [reflexivity|]. split; [exact He|].
  assert (Hd : document (emit_text (econf_of config0) (wtree w)) (reread [] w)) by (apply text_round_trip; [exact I|exact He|exact HW]).
  destruct (reads_text x E id _ _ _ Hd HR) as [N HN]. exists N. intros fuel Hf. specialize (HN fuel Hf).
  unfold from_str in HN. rewrite Hd in HN. exact HN.
Qed.

Theorem round_text : forall x E c id v s, supported E -> rootable E id -> Survives x E false id v -> white_indent c ->
  to_string_with_config x E c id v = SOk s -> exists N, forall fuel, N <= fuel -> from_str x E fuel id s = OOk v.
Proof.
  intros x E c id v s Hs Hr Hv Hc H. destruct (to_string_some _ _ _ _ _ _ H) as (l & Hl & ->).
  destruct (round_tree x E id v l Hs Hr Hv Hl) as (w & -> & He & HW & _ & HR).
  apply (reads_text x E id _ (reread [] w)); [|exact HR].
  apply text_round_trip; [apply white_econf; exact Hc|exact He|exact HW].
Qed.

Lemma written_text : forall x E c id v, serializable E -> Typed E id v -> exists s, to_string_with_config x E c id v = SOk s.
Proof.
  intros x E c id v Hs Ht. destruct (ser_total x E id v Hs Ht) as [l Hl]. unfold to_string_with_config. rewrite Hl. cbn. eauto.
Qed.

(** ** One field of a struct *)
Lemma fields_pointwise : forall x E b self fs vs, Forall2 (FieldSurvives x E b self) fs vs -> FieldsSurvive x E b self fs vs.
Proof. intros x E b self fs vs H. induction H; constructor; assumption. Qed.

Lemma all_fields : forall x E b self fs vs, List.length vs = List.length fs ->
  (forall j f v, nth_error fs j = Some f -> nth_error vs j = Some v -> FieldSurvives x E b self f v) ->
  Forall2 (FieldSurvives x E b self) fs vs.
Proof.
  intros x E b self. induction fs as [|f fs IH]; intros [|v vs] Hl H; try discriminate; constructor.
  - apply (H 0); reflexivity.
  - apply IH; [cbn in Hl; lia|]. intros j g u Hj Hu. apply (H (S j)); assumption.
Qed.

Lemma round_field : forall x E c id td fs vs i f v s, supported E -> rootable E id -> struct_type E id td fs ->
  others_survive x E fs vs i -> nth_error fs i = Some f -> nth_error vs i = Some v ->
  FieldSurvives x E false (VRec vs) f v -> white_indent c ->
  to_string_with_config x E c id (VRec vs) = SOk s -> exists N, forall fuel, N <= fuel -> from_str x E fuel id s = OOk (VRec vs).
Proof.
  intros x E c id td fs vs i f v s Hs Hr Ht [Hlen Ho] Hf Hv Hsv Hc H. apply (round_text x E c id (VRec vs) s); try assumption.
  eapply sv_struct; [exact Ht|discriminate|]. apply fields_pointwise, all_fields; [exact Hlen|].
  intros j g u Hg Hu. destruct (Nat.eq_dec j i) as [->|Hne]; [|apply (Ho j); assumption].
  assert (g = f) by congruence. assert (u = v) by congruence. subst. exact Hsv.
Qed.

Lemma item_field : forall x E self f v, plain_element f -> ~ suppressed x self f v ->
  (exists items, items_of (f_ty f) v = Some items /\ forall w, In w items -> ItemSurvives x E (base_of (f_ty f)) w) ->
  FieldSurvives x E false self f v.
Proof.
  intros x E self f v (H1 & H2 & H3 & H4) Hs (items & Hi & Hw). eapply fv_items; eassumption.
Qed.

(** ** Enums *)
Lemma round_enum : forall x E c id td fs vs i f e te vars d k vr args s,
  supported E -> rootable E id -> struct_type E id td fs -> others_survive x E fs vs i ->
  nth_error fs i = Some f -> nth_error vs i = Some (VVar k args) -> plain_element f ->
  ~ suppressed x (VRec vs) f (VVar k args) -> f_ty f = TBase (BUser e) ->
  nth_error E e = Some te -> t_body te = DEnum vars d -> ya_tag (t_attrs te) = None -> first_variant vars k vr ->
  (v_body vr = VbUnit /\ args = [] /\ bare_variant (t_attrs te) vr /\ clean (variant_name vr) \/
   exists t w, v_body vr = VbNew false t /\ args = [w] /\ ya_flatten (v_attrs vr) = false /\ PayloadSurvives x E d k t w) ->
  white_indent c -> to_string_with_config x E c id (VRec vs) = SOk s ->
  exists N, forall fuel, N <= fuel -> from_str x E fuel id s = OOk (VRec vs).
Proof.
  intros x E c id td fs vs i f e te vars d k vr args s Hs Hr Ht Ho Hf Hv Hp Hns Hty Hte Hb Htag Hfv Hk Hc H.
  apply (round_field x E c id td fs vs i f (VVar k args) s); try assumption. apply item_field; [exact Hp|exact Hns|].
  rewrite Hty. cbn [items_of base_of]. eexists. split; [reflexivity|]. intros w [<-|[]]. apply is_user.
  destruct Hk as [(H1 & -> & H2 & H3)|(t & w & H1 & -> & H2 & H3)].
  - eapply sv_unit; eassumption.
  - eapply sv_payload; try eassumption; [reflexivity|discriminate].
Qed.

(** ** Tagged enums *)
Lemma tagged_written : forall x E id td vars d tg i vr o, nth_error E id = Some td -> t_body td = DEnum vars d ->
  ya_tag (t_attrs td) = Some tg -> ya_flatten (t_attrs td) = false -> nth_error vars i = Some vr -> v_body vr = VbUnit ->
  exists m, Written x E id o (VVar i [])
    [WStart (qname (match o with Some q => q | None => ser_root td end)) [Attr (Name tg None None) (variant_name vr)] m; WEnd None].
Proof.
  intros x E id td vars d tg i vr o Htd Hb Htag Hfl Hv Hu. exists (ns_extend (declared (t_attrs td)) []). apply written_encode.
  rewrite encode_eq. unfold enc_type. rewrite Htd, Hb, Hfl. unfold enc_start, enc_content. rewrite Hb, Hv, Htag. cbn [omap SpecEnc.omap].
  unfold enc_variant. rewrite Hu, ?Htag. destruct o; reflexivity.
Qed.

(** ** Newtypes *)
Lemma prim_writable : forall n t, identifier n -> legal t = true -> Writable [] (WElem (qname n) [] [] [WTxt t]).
Proof.
  intros n t Hn Ht. rewrite qname_plain by apply Hn. apply w_elem; [apply good_plain; exact Hn|exact I|intros ? []|constructor|intros ? []|].
  intros k [<-|[]]. constructor. exact Ht.
Qed.

Lemma prim_fits : forall x E P Q id td k n a m u v, nth_error E id = Some td -> t_body td = DPrim k ->
  (clean u \/ u = "") -> parse_prim x (t_name td) k u = Ok v ->
  Fits x E P Q id (Elem n a m (text_node u)) /\
  forall p q, decode x E p q true id (Elem n a m (text_node u)) = OOk v.
Proof.
  intros x E P Q id td k n a m u v Htd Hb Hu Hp.
  assert (Hn : text_node u = [Txt u] \/ text_node u = [] /\ u = "").
  { destruct Hu as [Hu| ->]; [left; apply clean_node; exact Hu|right; auto]. }
  split.
  - eapply fits_prim; [exact Htd|exact Hb|]. destruct Hn as [-> | [-> _]]; eauto.
  - intros p q. cbn [decode]. rewrite Htd, Hb. destruct Hn as [-> | [-> ->]]; rewrite Hp; reflexivity.
Qed.

Theorem round_prim : forall x E c id td k v s, nth_error E id = Some td -> t_body td = DPrim k -> identifier (t_name td) ->
  prim_survives x clean (t_name td) k v -> white_indent c -> to_string_with_config x E c id v = SOk s ->
  exists N, forall fuel, N <= fuel -> from_str x E fuel id s = OOk v.
Proof.
  intros x E c id td k v s Htd Hb Hid Hp Hc H. destruct (to_string_some _ _ _ _ _ _ H) as (l & Hl & ->).
  destruct (prim_shown _ _ _ _ _ Hp) as [t Ht].
  destruct (prim_text x clean (t_name td) k v t (fun u Hu => proj1 Hu) Hp Ht) as [Hcl Hpp].
  assert (Hlt : legal t = true) by (destruct Hcl as [Hcl| ->]; [apply Hcl|reflexivity]).
  assert (He : l = wtree (WElem (qname (t_name td)) [] [] [WTxt t])).
  { pose proof (ser_events_encode x E id v) as He. rewrite encode_eq in He. unfold enc_type in He. rewrite Htd, Hb, Ht in He.
    cbn [SpecEnc.omap] in He. rewrite He in Hl. injection Hl as <-. reflexivity. }
  subst l.
  apply (reads_text x E id _ (reread [] (WElem (qname (t_name td)) [] [] [WTxt t]))).
  - apply text_round_trip; [apply white_econf; exact Hc|exact I|apply prim_writable; assumption].
  - rewrite reread_elem. cbn [reread_kids String.append].
    destruct (prim_fits x E (fun _ _ => False) (fun _ _ => False) id td k
                (rname (declare [] [] :: []) (qname (t_name td))) [] (squash (declare [] [] :: [])) t v Htd Hb Hcl Hpp) as [Hf Hd].
    apply (proj2 (read_decode x E 0 id 0 _ _ Hf)). cbn [Nat.eqb]. apply Hd.
Qed.

(** ** Attributes of user type *)

Lemma variant_bare : forall ra vr, bare_variant ra vr -> variant_qname ra vr = variant_name vr.
Proof.
  intros ra vr H. unfold variant_qname, variant_name, prefix_part, xml_element_name.
  assert (Hp : (if opt_eqb (ya_default_namespace ra) (ya_prefix (v_attrs vr)) then ""
                else match ya_prefix (v_attrs vr) with Some p => p +++ ":" | None => "" end) = ""); [|rewrite Hp; reflexivity].
  destruct H as [-> | ->]; [destruct (opt_eqb _ _); reflexivity|].
  rewrite (proj2 (opt_eqb_eq _ _) eq_refl). reflexivity.
Qed.

Lemma type_content : forall x E e w u, type_text x E e w u -> Content x E e w [WChars u].
Proof.
  intros x E e w u H. apply content_encode. rewrite encode_eq. unfold enc_type. destruct H as [e te vars d k vr Hte Hb Ht Hv Hu Hbare|e te k v u Hte Hb Hs].
  - rewrite Hte, Hb. unfold enc_content. rewrite Hb, Hv. unfold enc_variant. rewrite Hu, Ht, (variant_bare _ _ Hbare). reflexivity.
  - rewrite Hte, Hb, Hs. reflexivity.
Qed.

Lemma Forall3_at : forall {A B C} (P : A -> B -> C -> Prop) la lb lc i a b, Forall3 P la lb lc -> nth_error la i = Some a -> nth_error lb i = Some b ->
  exists c, P a b c /\ nth_error lc i = Some c.
Proof.
  intros A B C P la lb lc i a b H. revert i. induction H as [|a0 la b0 lb c0 lc H0 H IH]; intros i Ha Hb; [destruct i; discriminate|].
  destruct i as [|i]; cbn in *; [|apply IH; assumption]. injection Ha as ->. injection Hb as ->. eauto.
Qed.

Lemma attr_written : forall x E id td fs o vs n a m body i f v e w u, struct_type E id td fs -> ya_flatten (t_attrs td) = false ->
  Written x E id o (VRec vs) (WStart n a m :: body) -> nth_error fs i = Some f -> nth_error vs i = Some v ->
  ya_attribute (f_attrs f) = true -> ~ unneeded x (VRec vs) f v ->
  (f_ty f = TBase (BUser e) /\ v = w \/ f_ty f = TOpt (BUser e) /\ v = VOpt (Some w)) ->
  type_text x E e w u -> In (Attr (qname (field_qname (t_attrs td) f)) (esc_pcdata u)) a.
Proof.
  intros x E id td fs o vs n a m body i f v e w u Hst Hfl H Hf Hv Ha Hun Hty Htx.
  destruct (struct_out _ _ _ _ _ _ _ _ Hst Hfl H) as (own & child & m' & parts & aparts & Heq & _ & Hp & -> & _).
  injection Heq as _ -> _ _. destruct (Forall3_at _ _ _ _ _ _ _ Hp Hf Hv) as (l & Hl & Hn).
  apply in_or_app. left. apply in_concat. exists l. split; [apply nth_error_In in Hn; exact Hn|].
  apply type_content in Htx.
  inversion Hl as [v0 H1|b0 H1 H2|b0 l0 H1 H2|v0 H1 H2|b v0 w0 t H1 H2 H3 H4]; subst; try congruence; try contradiction;
    try (exfalso; destruct Hty as [[? ?]|[? ?]]; congruence).
  assert (b = BUser e /\ w0 = w) as [-> ->].
  { destruct Hty as [[T V]|[T V]]; destruct H3 as [[T' V']|[T' V']]; rewrite T in T'; try discriminate; injection T' as <-; split; congruence. }
  inversion H4 as [|id0 v1 l1 Hc]; subst. apply content_encode in Hc, Htx. rewrite Hc in Htx. injection Htx as ->.
  rewrite chars_text. left. reflexivity.
Qed.

Lemma esc_plain : forall s, no_markup s = true -> esc_pcdata s = s.
Proof.
  induction s as [|c s IH]; intros H; [reflexivity|]. cbn [no_markup] in H. rewrite !andb_true_iff, !negb_true_iff in H.
  destruct H as [[[H1 H2] H3] H4]. cbn [esc_pcdata]. unfold esc_pcdata_char. rewrite H1, H2, H3, IH by exact H4. reflexivity.
Qed.

Lemma round_attr : forall x E c id td fs vs i f v t w s, supported E -> rootable E id -> struct_type E id td fs ->
  others_survive x E fs vs i -> nth_error fs i = Some f -> nth_error vs i = Some v ->
  ya_attribute (f_attrs f) = true -> ~ unneeded x (VRec vs) f v ->
  (f_ty f = TBase t /\ v = w \/ f_ty f = TOpt t /\ v = VOpt (Some w)) -> AttrSurvives x E t w ->
  white_indent c -> to_string_with_config x E c id (VRec vs) = SOk s ->
  exists N, forall fuel, N <= fuel -> from_str x E fuel id s = OOk (VRec vs).
Proof.
  intros x E c id td fs vs i f v t w s Hs Hr Ht Ho Hf Hv Ha Hu Hty Hsv Hc H.
  apply (round_field x E c id td fs vs i f v s); try assumption. eapply fv_attribute; eassumption.
Qed.

Lemma round_cdata : forall x E c id td fs vs i f t s, supported E -> rootable E id -> struct_type E id td fs ->
  others_survive x E fs vs i -> nth_error fs i = Some f -> nth_error vs i = Some (VStr t) ->
  ya_attribute (f_attrs f) = false -> ya_text (f_attrs f) = false -> ya_cdata (f_attrs f) = true ->
  f_ty f = TBase (BSimple SString) -> ~ suppressed x (VRec vs) f (VStr t) -> clean t -> contains "]]>" t = false ->
  white_indent c -> to_string_with_config x E c id (VRec vs) = SOk s ->
  exists N, forall fuel, N <= fuel -> from_str x E fuel id s = OOk (VRec vs).
Proof.
  intros x E c id td fs vs i f t s Hs Hr Ht Ho Hf Hv Ha Htx Hcd Hty Hu Hcl Hco Hc H.
  apply (round_field x E c id td fs vs i f (VStr t) s); try assumption. apply fv_cdata; assumption.
Qed.

(** ** Names (C26) *)
Lemma struct_decls : forall x E id td fs o vs n a m body, struct_type E id td fs -> ya_flatten (t_attrs td) = false ->
  Written x E id o (VRec vs) (WStart n a m :: body) ->
  exists ns, m = ns_extend (declared (t_attrs td)) ns /\ (flattens fs = false -> ns = []).
Proof.
  intros x E id td fs o vs n a m body [Htd Hb] Hfl H. apply written_encode in H. apply omap_some in H. destruct H as (ts & H & Heq).
  rewrite encode_eq in H. unfold enc_type in H. rewrite Htd, Hb, Hfl in H.
  destruct (enc_start x (encode x E) (encode_attrs x E) td (VRec vs)) as [[[own child] ns]|] eqn:Hs; [|discriminate].
  destruct (enc_content x (encode x E) (Under o) td (VRec vs)) as [ks|] eqn:Hc; [|discriminate]. injection H as <-.
  cbn [flat_map wtree] in Heq. injection Heq as _ _ -> _. exists ns. split; [reflexivity|].
  unfold enc_start in Hs. rewrite Hb in Hs. apply tag_out in Hs. apply Hs.
Qed.

Lemma own_extend : forall ra ns p u, unambiguous ra -> In (p, u) (own_bindings ra) -> ns_get (ns_extend (declared ra) ns) p = Some u.
Proof.
  intros ra ns p u Hf Hin. apply sorted_get; [apply extend_sorted, extend_sorted; exact I|]. apply ns_extend_keeps.
  destruct (ns_extend_has (own_bindings ra) [] p u Hin) as [w Hw]. pose proof (ns_extend_in _ _ _ _ Hw) as [[]|Hw'].
  rewrite (Hf p u w Hin Hw'). exact Hw.
Qed.

Lemma name_prefixed : forall x E id td fs o vs n a m body f p u, struct_type E id td fs -> ya_flatten (t_attrs td) = false ->
  unambiguous (t_attrs td) ->
  Written x E id o (VRec vs) (WStart n a m :: body) -> In f fs ->
  ya_prefix (f_attrs f) = Some p -> ns_get (ya_namespaces (t_attrs td)) p = Some u -> identifier p -> identifier (field_name f) ->
  resolve m (qname (field_qname (t_attrs td) f)) = flabel (t_attrs td) f.
Proof.
  intros x E id td fs o vs n a m body f p u Hst Hfl Hua H Hf Hp Hu Hip Hif.
  destruct (struct_decls _ _ _ _ _ _ _ _ _ _ _ Hst Hfl H) as (ns & -> & _).
  unfold flabel, resolve, field_qname, prefix_part. fold (field_name f). rewrite Hp. cbn [uri_of]. rewrite Hu.
  pose proof (own_in (t_attrs td) p u (ns_get_in _ _ _ Hu)) as Hin. pose proof (own_extend (t_attrs td) ns _ u Hua Hin) as Hg.
  destruct (opt_eqb (ya_default_namespace (t_attrs td)) (Some p)).
  - cbn [String.append]. change (xml_element_name (f_attrs f) (f_label f)) with (field_name f). rewrite qname_plain by apply Hif.
    cbn [n_prefix n_local]. rewrite Hg. reflexivity.
  - rewrite sapp_assoc, qname_prefixed by apply Hip. cbn [n_prefix n_local]. rewrite Hg. reflexivity.
Qed.

Lemma name_bare : forall x E id td fs o vs n a m body f, struct_type E id td fs -> ya_flatten (t_attrs td) = false ->
  flattens fs = false ->
  Written x E id o (VRec vs) (WStart n a m :: body) -> In f fs ->
  ya_prefix (f_attrs f) = None -> (forall u, ~ In ("", u) (own_bindings (t_attrs td))) -> identifier (field_name f) ->
  resolve m (qname (field_qname (t_attrs td) f)) = flabel (t_attrs td) f.
Proof.
  intros x E id td fs o vs n a m body f Hst Hfl Hff H Hf Hp Hu Hif.
  destruct (struct_decls _ _ _ _ _ _ _ _ _ _ _ Hst Hfl H) as (ns & -> & Hns). rewrite (Hns Hff). cbn [ns_extend fold_left].
  unfold flabel, resolve, field_qname, prefix_part. fold (field_name f). rewrite Hp. cbn [uri_of].
  replace (if opt_eqb (ya_default_namespace (t_attrs td)) None then "" else "") with "" by (destruct (opt_eqb _ _); reflexivity).
  cbn [String.append]. change (xml_element_name (f_attrs f) (f_label f)) with (field_name f). rewrite qname_plain by apply Hif.
  cbn [n_prefix n_local].
  destruct (ns_get (declared (t_attrs td)) "") as [u|] eqn:Hg; [|reflexivity]. exfalso. apply (Hu u). apply declared_in, ns_get_in, Hg.
Qed.

(** Anywhere in a document all of whose bindings come from the types. *)
Lemma name_scope : forall x E id td fs o vs n a m body f st, consistent E -> struct_type E id td fs -> ya_flatten (t_attrs td) = false ->
  flattens fs = false -> (forall s p u, In s st -> In (p, u) s -> In (p, u) (bindings E)) ->
  Written x E id o (VRec vs) (WStart n a m :: body) -> In f fs ->
  prefix_fine E (t_attrs td) (ya_prefix (f_attrs f)) -> identifier (field_name f) ->
  elabel (rname (declare st m :: st) (qname (field_qname (t_attrs td) f))) = flabel (t_attrs td) f.
Proof.
  intros x E id td fs o vs n a m body f st Hc Hst Hfl Hff Hw H Hf Hp Hif.
  destruct (struct_decls _ _ _ _ _ _ _ _ _ _ _ Hst Hfl H) as (ns & -> & Hns). rewrite (Hns Hff). cbn [ns_extend fold_left].
  destruct Hst as [Htd Hb]. pose proof (own_bound E id td Htd) as Ho.
  assert (Hin : forall pu, In pu (declared (t_attrs td)) -> In pu (bindings E)) by (intros pu Hpu; apply Ho, declared_in, Hpu).
  pose proof (declare_within (bindings E) st (declared (t_attrs td)) Hw Hin) as Hw'.
  assert (Hh : holds (declare st (declared (t_attrs td)) :: st) (t_attrs td)).
  { intros p u Hpu. destruct Hc as [Hfun _]. apply (declare_has (bindings E) Hfun); [exact Hw|exact Hin|].
    destruct (ns_extend_has (own_bindings (t_attrs td)) [] p u Hpu) as [w Hx]. pose proof (ns_extend_in _ _ _ _ Hx) as [[]|Hx'].
    rewrite (Hfun p u w (Ho _ Hpu) (Ho _ Hx')). exact Hx. }
  apply (means_label (bindings E)); [exact Hw'|].
  apply (prefixed_means E (t_attrs td) _ (ya_prefix (f_attrs f)) (field_name f)); assumption.
Qed.

(** ** String contents (C35) and indentation (C37) *)
Lemma string_element : forall c q s, identifier q -> legal s = true -> white_indent c ->
  parse_text (emit_text (econf_of c) [WStart (qname q) [] []; WChars s; WEnd None]) =
  Stream (EStartDoc :: flat (Elem (Name q None None) [] [] (text_node s))) FEnd.
Proof.
  intros c q s Hq Hs Hc. pose proof (text_round_trip (econf_of c) (white_econf c Hc) (WElem (qname q) [] [] [WTxt s]) I (prim_writable q s Hq Hs)) as H.
  rewrite reread_elem in H. cbn [reread_kids String.append map wtree flat_map app] in H. rewrite H. rewrite qname_plain by apply Hq. reflexivity.
Qed.
Lemma string_attribute : forall c q a s, identifier q -> identifier a -> a <> "xmlns" -> legal s = true -> white_indent c ->
  parse_text (emit_text (econf_of c) [WStart (qname q) [Attr (qname a) s] []; WEnd None]) =
  Stream [EStartDoc; EStart (Name q None None) [Attr (Name a None None) (untab s)] []; EEnd (Name q None None)] FEnd.
Proof.
  intros c q a s Hq Ha Hx Hs Hc.
  assert (HW : Writable [] (WElem (qname q) [Attr (qname a) s] [] [])).
  { rewrite !qname_plain by (apply Hq || apply Ha). apply w_elem; [apply good_plain; exact Hq|exact I| | |intros ? []|intros ? []].
    - intros t [<-|[]]. split; [apply good_plain; exact Ha|]. split; [exact I|]. split; [exact Hs|]. split; [discriminate|].
      intros _. exact Hx.
    - constructor; [intros []|constructor]. }
  pose proof (text_round_trip (econf_of c) (white_econf c Hc) (WElem (qname q) [Attr (qname a) s] [] []) I HW) as H.
  rewrite reread_elem in H. cbn [reread_kids String.append map wtree flat_map app] in H. rewrite H.
  rewrite !qname_plain by (apply Hq || apply Ha). reflexivity.
Qed.

Theorem indent_same : forall x E c c' id v s s', writable_types E -> own_element E id ->
  (forall l, ser_events x E id v = SOk l -> forall e, In e l -> legal_event e) ->
  white_indent c -> white_indent c' ->
  to_string_with_config x E c id v = SOk s -> to_string_with_config x E c' id v = SOk s' ->
  parse_text s = parse_text s' /\ forall id' fuel, from_str x E fuel id' s = from_str x E fuel id' s'.
Proof.
  intros x E c c' id v s s' Hw Ho Hl Hc Hc' H H'. destruct (to_string_some _ _ _ _ _ _ H) as (l & Hs & ->).
  destruct (to_string_some _ _ _ _ _ _ H') as (l' & Hs' & ->). assert (l' = l) by congruence. subst l'.
  destruct (flat_writable x E id v l Hw Ho Hs (Hl l Hs)) as (w & -> & He & HW & _).
  assert (Hp : parse_text (emit_text (econf_of c) (wtree w)) = parse_text (emit_text (econf_of c') (wtree w))).
  { rewrite !text_round_trip; try assumption; try (apply white_econf; assumption); reflexivity. }
  split; [exact Hp|]. intros id' fuel. unfold from_str. rewrite Hp. reflexivity.
Qed.

Theorem indent_strings : forall x E c c' id v s s', shows_legal x -> plain_strings E -> writable_types E -> own_element E id ->
  (forall t, InValue t v -> legal t = true) -> white_indent c -> white_indent c' ->
  to_string_with_config x E c id v = SOk s -> to_string_with_config x E c' id v = SOk s' ->
  parse_text s = parse_text s' /\ forall id' fuel, from_str x E fuel id' s = from_str x E fuel id' s'.
Proof.
  intros x E c c' id v s s' Hx Hp Hw Ho Hv Hc Hc' H H'. apply (indent_same x E c c' id v); try assumption.
  intros l Hl e He. eapply ser_legal; eassumption.
Qed.

Theorem round_tagged : forall x E c id td vars d tg i vr s, supported E -> rootable E id ->
  nth_error E id = Some td -> t_body td = DEnum vars d -> ya_tag (t_attrs td) = Some tg ->
  first_variant vars i vr -> v_body vr = VbUnit -> legal_attr (variant_name vr) = true -> white_indent c ->
  to_string_with_config x E c id (VVar i []) = SOk s ->
  exists N, forall fuel, N <= fuel -> from_str x E fuel id s = OOk (VVar i []).
Proof.
  intros x E c id td vars d tg i vr s Hs Hr Htd Hb Ht Hf Hu Hl Hc H. apply (round_text x E c id (VVar i []) s); try assumption.
  eapply sv_tagged; eassumption.
Qed.
Theorem round_tagged_field : forall x E c id td fs vs j f e te vars d tg i vr s,
  supported E -> rootable E id -> struct_type E id td fs -> others_survive x E fs vs j ->
  nth_error fs j = Some f -> nth_error vs j = Some (VVar i []) -> plain_element f ->
  ~ suppressed x (VRec vs) f (VVar i []) -> f_ty f = TBase (BUser e) ->
  nth_error E e = Some te -> t_body te = DEnum vars d -> ya_tag (t_attrs te) = Some tg ->
  first_variant vars i vr -> v_body vr = VbUnit -> legal_attr (variant_name vr) = true -> white_indent c ->
  to_string_with_config x E c id (VRec vs) = SOk s ->
  exists N, forall fuel, N <= fuel -> from_str x E fuel id s = OOk (VRec vs).
Proof.
  intros x E c id td fs vs j f e te vars d tg i vr s Hs Hr Ht Ho Hf Hv Hp Hns Hty Hte Hb Htag Hfv Hu Hl Hc H.
  apply (round_field x E c id td fs vs j f (VVar i []) s); try assumption. apply item_field; [exact Hp|exact Hns|].
  rewrite Hty. cbn [items_of base_of]. eexists. split; [reflexivity|]. intros w [<-|[]]. apply is_user.
  eapply sv_tagged; eassumption.
Qed.

Theorem round_integer : forall x E c id td t z s, nth_error E id = Some td -> t_body td = DPrim (PInner (SInt t)) -> identifier (t_name td) ->
  fits t z -> white_indent c -> to_string_with_config x E c id (VInt z) = SOk s ->
  exists N, forall fuel, N <= fuel -> from_str x E fuel id s = OOk (VInt z).
Proof.
  intros x E c id td t z s Htd Hb Hi Hz Hc H. apply (round_prim x E c id td (PInner (SInt t)) (VInt z) s); try assumption. left. exact Hz.
Qed.
Theorem round_bool : forall x E c id td b s, nth_error E id = Some td -> t_body td = DPrim (PInner SBool) -> identifier (t_name td) ->
  white_indent c -> to_string_with_config x E c id (VBool b) = SOk s ->
  exists N, forall fuel, N <= fuel -> from_str x E fuel id s = OOk (VBool b).
Proof.
  intros x E c id td b s Htd Hb Hi Hc H. apply (round_prim x E c id td (PInner SBool) (VBool b) s); try assumption. left. exact I.
Qed.

Lemma show_Z_legal : forall z, legal (show_Z z) = true.
Proof. intros z. destruct (show_Z_token z) as [_ Hz]. unfold legal_attr in Hz. apply andb_prop in Hz. apply Hz. Qed.

(** What [from_str] answers with enough fuel is what it answers with any fuel
    that suffices (FuelProofs.v); used to refute. *)
Lemma answers : forall x E id s f o o', from_str x E f id s = o -> o <> OFuel ->
  (exists N, forall fuel, N <= fuel -> from_str x E fuel id s = o') -> o = o'.
Proof.
  intros x E id s f o o' <- Hne [N H]. rewrite <- (H (Nat.max N f) (Nat.le_max_l _ _)). symmetry.
  unfold from_str in *. apply fuel_more; [apply Nat.le_max_r|exact Hne].
Qed.

Lemma wtree_one : forall w w', is_elem w -> is_elem w' -> wtree w = wtree w' -> w = w'.
Proof.
  assert (H : forall n w w' r r', List.length (wtree w) <= n -> is_elem w -> is_elem w' -> wtree w ++ r = wtree w' ++ r' -> w = w' /\ r = r').
  { induction n as [|n IH]; intros w w' r r' Hn He He' Hx; [destruct w; cbn in *; [lia|destruct He..]|].
    destruct w as [nn a m ks| |]; [|destruct He..]. destruct w' as [nn' a' m' ks'| |]; [|destruct He'..].
    cbn [wtree app] in Hx. injection Hx as <- <- <- Hx. rewrite <- !app_assoc in Hx. cbn [wtree List.length] in Hn. rewrite app_length in Hn.
    assert (Hk : ks = ks' /\ r = r'); [|destruct Hk as [-> ->]; auto].
    clear He He'. revert ks' Hx. induction ks as [|k ks IHk]; intros [|k' ks'] Hx.
    - cbn in Hx. split; [reflexivity|]. congruence.
    - exfalso. destruct k'; cbn in Hx; discriminate.
    - exfalso. destruct k; cbn in Hx; discriminate.
    - cbn [flat_map] in Hx, Hn. rewrite <- !app_assoc in Hx. rewrite app_length in Hn.
      assert (Hk : k = k' /\ flat_map wtree ks ++ [WEnd None] ++ r = flat_map wtree ks' ++ [WEnd None] ++ r').
      { destruct k as [n1 a1 m1 k1|s1|s1], k' as [n2 a2 m2 k2|s2|s2]; try (cbn in Hx; discriminate).
        - apply IH; [lia|exact I|exact I|exact Hx].
        - cbn in Hx. injection Hx as <- Hx. auto.
        - cbn in Hx. injection Hx as <- Hx. auto. }
      destruct Hk as [<- Hx']. destruct (IHk ltac:(lia) ks' Hx') as [<- <-]. auto. }
  intros w w' He He' Hx. apply (H (List.length (wtree w)) w w' [] []); [lia|exact He|exact He'|]. rewrite !app_nil_r. exact Hx.
Qed.
