(** * [to_string_content] and the document declaration. *)
From Verif Require Import Str Num Xml XmlText Reader Schema De Ser SpecTree SpecText TextProofs SpecEnc SpecSer EncProofs SerProofs
  SpecContent.
Open Scope list_scope.

(** ** Names *)
Lemma split_colon_join : forall s p l, split_colon s = Some (p, l) -> s = p +++ ":" +++ l.
Proof.
  induction s as [|c s IH]; intros p l H; [discriminate|]. cbn [split_colon] in H.
  destruct (Ascii.eqb c ":") eqn:Hc.
  - injection H as <- <-. apply Ascii.eqb_eq in Hc. subst c. reflexivity.
  - destruct (split_colon s) as [[p' l']|]; [|discriminate]. injection H as <- <-.
    rewrite (IH p' l' eq_refl) at 1. reflexivity.
Qed.
Lemma repr_qname : forall q, name_repr (qname q) = q.
Proof.
  intros q. unfold qname. destruct (split_colon q) as [[p l]|] eqn:H; [|reflexivity].
  cbn. symmetry. exact (split_colon_join _ _ _ H).
Qed.

(** ** The emitter without indentation *)
Definition is_nil {A} (l : list A) : bool := match l with [] => true | _ => false end.

Lemma emit_flags : forall d l b ns st fl fl',
  emit_from (EConf d None) (Emst b ns st fl) l = emit_from (EConf d None) (Emst b ns st fl') l.
Proof.
  intros d. induction l as [|e l IH]; intros b ns st fl fl'; [reflexivity|].
  cbn [emit_from]. destruct e as [n a m|o|s|s]; cbn [emit1 em_just em_names em_nss em_flags indent_before_start indent_before_end ec_indent].
  - f_equal. apply IH.
  - destruct ns as [|top rest]; f_equal; apply IH.
  - f_equal. apply IH.
  - f_equal. apply IH.
Qed.

Lemma nss_has_blank : forall st d p u, Forall (fun m : nsmap => m = []) d -> nss_has (st ++ d) p u = nss_has st p u.
Proof.
  intros st d p u H. unfold nss_has. rewrite existsb_app.
  assert (H0 : existsb (fun m : nsmap => match ns_get m p with Some v => String.eqb v u | None => false end) d = false).
  { induction H as [|m d -> H IH]; [reflexivity|]. cbn. exact IH. }
  rewrite H0. apply Bool.orb_false_r.
Qed.
Lemma declare_blank : forall st d m, Forall (fun m : nsmap => m = []) d -> declare (st ++ d) m = declare st m.
Proof.
  intros st d m H. unfold declare. generalize ([] : nsmap) as cur. induction m as [|pu m IH]; intros cur; [reflexivity|].
  cbn [fold_left]. change (cur :: st ++ d) with ((cur :: st) ++ d). rewrite (nss_has_blank (cur :: st) d) by exact H. apply IH.
Qed.

Lemma emit_shift : forall dc l, Nested l -> forall ns d, Forall (fun m : nsmap => m = []) d -> forall b names st fl k,
  emit_from (EConf dc None) (Emst b (names ++ ns) (st ++ d) fl) (l ++ k) =
  emit_from (EConf dc None) (Emst b names st fl) l +++
  emit_from (EConf dc None) (Emst (b && is_nil l) (names ++ ns) (st ++ d) fl) k.
Proof.
  intros dc l H. induction H as [|s l Hl IH|s l Hl IH|n a m body l Hb IHb Hl IHl]; intros ns d Hd b names st fl k.
  - cbn [app emit_from is_nil]. rewrite Bool.andb_true_r. reflexivity.
  - cbn [app emit_from emit1 em_just em_names em_nss em_flags is_nil]. rewrite Bool.andb_false_r.
    rewrite (IH ns d Hd). cbn [andb]. rewrite !sapp_assoc. do 3 f_equal. apply emit_flags.
  - cbn [app emit_from emit1 em_just em_names em_nss em_flags is_nil]. rewrite Bool.andb_false_r.
    rewrite (IH ns d Hd). cbn [andb]. rewrite !sapp_assoc. do 5 f_equal. apply emit_flags.
  - cbn [app emit_from emit1 em_just em_names em_nss em_flags is_nil indent_before_start ec_indent]. rewrite Bool.andb_false_r.
    rewrite (declare_blank st d m Hd). rewrite !sapp_assoc.
    rewrite <- (app_assoc body). cbn [app].
    change (n :: names ++ ns) with ((n :: names) ++ ns). change (declare st m :: st ++ d) with ((declare st m :: st) ++ d).
    rewrite (IHb ns d Hd).
    pose proof (IHb [] [] (Forall_nil _) true (n :: names) (declare st m :: st) ((false, false) :: set_markup fl) (WEnd None :: l)) as Hin.
    rewrite !app_nil_r in Hin. rewrite Hin. clear Hin.
    cbn [app emit_from emit1 em_just em_names em_nss em_flags tl indent_before_end ec_indent].
    rewrite (IHl ns d Hd). cbn [andb]. rewrite !sapp_assoc. do 9 f_equal. apply emit_flags.
Qed.

Lemma emit_pending : forall dc e l ns st fl, Nested (e :: l) ->
  emit_from (EConf dc None) (Emst true ns st fl) (e :: l) = ">" +++ emit_from (EConf dc None) (Emst false ns st fl) (e :: l).
Proof.
  intros dc e l ns st fl H. destruct e as [n a m|o|s|s].
  - reflexivity.
  - inversion H.
  - reflexivity.
  - reflexivity.
Qed.

(** One element without namespaces: tags around its content. *)
Lemma emit_element : forall n a body, Nested body ->
  emit_text (EConf true None) (WStart n a [] :: body ++ [WEnd None]) =
  xml_decl +++ "<" +++ name_repr n +++ show_attrs a +++
  (match body with
   | [] => " />"
   | _ => ">" +++ emit_text (EConf false None) body +++ "</" +++ name_repr n +++ ">"
   end).
Proof.
  intros n a body Hb. unfold emit_text at 1. cbn [ec_decl emit_from emit1 em0 em_just em_names em_nss em_flags indent_before_start ec_indent].
  change (declare [] []) with ([] : nsmap). change (show_ns []) with "".
  cbn [set_markup].
  pose proof (emit_shift true body Hb [n] [[]] (Forall_cons _ eq_refl (Forall_nil _)) true [] [] [(false, false); (true, false)] [WEnd None]) as Hs.
  cbn [app] in Hs.
  match type of Hs with ?l = _ => match goal with |- context [emit_from ?c ?s (body ++ ?k)] => change (emit_from c s (body ++ k)) with l end end.
  rewrite Hs. clear Hs.
  destruct body as [|e body].
  - cbn [app emit_from emit1 em_just em_names em_nss em_flags indent_before_end ec_indent andb is_nil].
    rewrite !sapp_assoc, sapp_nil. reflexivity.
  - rewrite (emit_pending _ _ _ _ _ _ Hb). cbn [app is_nil andb]. unfold emit_text. cbn [ec_decl].
    assert (Hc : forall l b ns st fl, emit_from (EConf true None) (Emst b ns st fl) l = emit_from (EConf false None) (Emst b ns st fl) l).
    { induction l as [|e' l IH]; intros b ns st fl; [reflexivity|]. cbn [emit_from].
      destruct e' as [n' a' m'|o|s'|s']; cbn [emit1 em_just em_names em_nss em_flags indent_before_start indent_before_end ec_indent];
        [f_equal; apply IH| |f_equal; apply IH|f_equal; apply IH]. destruct ns; f_equal; apply IH. }
    rewrite Hc. rewrite (emit_flags false (e :: body) false [] [] _ [(false, false)]).
    change (emit_from (EConf true None) (Emst false [n] [[]] [(false, false); (true, false)]) [WEnd None])
      with (("</" +++ name_repr n +++ ">") +++ "").
    rewrite !sapp_assoc. rewrite sapp_nil. reflexivity.
Qed.

Lemma no_gt_app : forall a b, no_gt (a +++ b) = (no_gt a && no_gt b)%bool.
Proof. intros. apply all_chars_app. Qed.
Lemma no_gt_esc : forall s, no_gt (esc_attr s) = true.
Proof.
  induction s as [|c s IH]; [reflexivity|]. cbn [esc_attr]. rewrite no_gt_app, IH, Bool.andb_true_r.
  unfold esc_attr_char. destruct (Ascii.eqb c "<"); [reflexivity|]. destruct (Ascii.eqb c ">") eqn:Hg; [reflexivity|].
  destruct (Ascii.eqb c """"); [reflexivity|]. destruct (Ascii.eqb c "'"); [reflexivity|]. destruct (Ascii.eqb c "&"); [reflexivity|].
  destruct (Ascii.eqb c "010"); [reflexivity|]. destruct (Ascii.eqb c "013"); [reflexivity|].
  unfold no_gt. cbn [all_chars]. rewrite Hg. reflexivity.
Qed.
Lemma no_gt_attrs : forall l, Forall (fun a => no_gt (name_repr (at_name a)) = true) l -> no_gt (show_attrs l) = true.
Proof.
  intros l H. unfold show_attrs. induction H as [|a l Ha H IH]; [reflexivity|].
  assert (Hs : no_gt (show_attr (name_repr (at_name a), at_value a)) = true).
  { unfold show_attr. cbn [fst snd]. rewrite !no_gt_app, Ha, no_gt_esc. reflexivity. }
  cbn [map String.concat]. destruct (map _ l) as [|t r] eqn:Hm; [exact Hs|].
  cbn [String.append]. rewrite no_gt_app, Hs. exact IH.
Qed.

(** ** Start tags *)
Section Tags.
  Variable x : ext.
  Variable E : env.
  Hypothesis HE : plain_attributes E.

  Lemma attr_names : forall ra self f v l, no_gt (field_qname ra f) = true ->
    enc_attr x (encode x E) ra self f v = Some l -> Forall (fun a => no_gt (name_repr (at_name a)) = true) l.
  Proof.
    intros ra self f v l Hq H. unfold enc_attr in H.
    assert (Hone : forall w b, omap (fun t => if left_out x self v f false then []
                                  else [Attr (qname (field_qname ra f)) t]) (attr_show x (encode x E) b w) = Some l ->
      Forall (fun a => no_gt (name_repr (at_name a)) = true) l).
    { intros w b H0. apply omap_some in H0. destruct H0 as (t & _ & ->). destruct (left_out x self v f false); [constructor|].
      constructor; [|constructor]. cbn [at_name]. rewrite repr_qname. exact Hq. }
    destruct (f_ty f) as [b|b|b|b].
    - exact (Hone _ _ H).
    - destruct v as [| | | | |[w|]| | |]; try discriminate; [exact (Hone _ _ H)|]. injection H as <-. constructor.
    - destruct v; try discriminate. injection H as <-. constructor.
    - destruct v; discriminate.
  Qed.

  Lemma start_names : forall n v, height v < n -> forall id,
    (forall ca cn, encode_attrs x E id v = Some (ca, cn) -> Forall (fun a => no_gt (name_repr (at_name a)) = true) ca) /\
    (forall td own child ns, nth_error E id = Some td -> enc_start x (encode x E) (encode_attrs x E) td v = Some (own, child, ns) ->
       Forall (fun a => no_gt (name_repr (at_name a)) = true) (own ++ child)).
  Proof.
    induction n as [|n IH]; intros v Hv id; [lia|].
    assert (Hstart : forall td own child ns, nth_error E id = Some td ->
       enc_start x (encode x E) (encode_attrs x E) td v = Some (own, child, ns) ->
       Forall (fun a => no_gt (name_repr (at_name a)) = true) (own ++ child)).
    { intros td own child ns Htd H. unfold enc_start in H. pose proof (HE td (nth_error_In _ _ Htd)) as [Htag Hf].
      destruct (t_body td) as [fs|vars d|k] eqn:Hb.
      - destruct v as [| | | | | | |vs|]; try discriminate.
        assert (Hin : forall w, In w vs -> height w < n).
        { intros w Hw. cbn [height] in Hv. pose proof (height_in w vs Hw). lia. }
        specialize (Hf fs). revert H. generalize (VRec vs) as self. intros self H.
        assert (Hg : forall fs', (forall f, In f fs' -> In f fs) -> forall vs own child ns,
          enc_tag x (encode x E) (encode_attrs x E) (t_attrs td) self fs' vs = Some (own, child, ns) ->
          (forall w, In w vs -> height w < n) ->
          Forall (fun a => no_gt (name_repr (at_name a)) = true) own /\ Forall (fun a => no_gt (name_repr (at_name a)) = true) child).
        { clear H Hin Hv vs own child ns. induction fs' as [|f fs' IHf]; intros Hsub [|w vs] own child ns H Hin; cbn [enc_tag] in H; try discriminate.
          { injection H as <- <- <-. split; constructor. }
          destruct (enc_tag x (encode x E) (encode_attrs x E) (t_attrs td) self fs' vs) as [[[own' child'] ns']|] eqn:Ht; [|discriminate].
          destruct (IHf (fun g Hg => Hsub g (or_intror Hg)) vs own' child' ns' Ht (fun u Hu => Hin u (or_intror Hu))) as [H1 H2].
          destruct (ya_attribute (f_attrs f)) eqn:Hat.
          - apply omap_some in H. destruct H as (l & Hl & Heq). injection Heq as -> -> ->. split; [|exact H2]. apply Forall_app. split; [|exact H1].
            refine (attr_names _ _ _ _ _ _ Hl). apply Hf; [reflexivity| |exact Hat]. apply Hsub. left. reflexivity.
          - assert (Hsame : Some (own', child', ns') = Some (own, child, ns) ->
              Forall (fun a => no_gt (name_repr (at_name a)) = true) own /\ Forall (fun a => no_gt (name_repr (at_name a)) = true) child).
            { intros Heq. injection Heq as <- <- <-. split; assumption. }
            destruct (ya_flatten (f_attrs f)); [|exact (Hsame H)]. destruct (f_ty f) as [[s|id']|b|b|b]; try exact (Hsame H).
            apply omap_some in H. destruct H as ([ca cn] & Hl & Heq). injection Heq as -> -> ->. split; [exact H1|].
            apply Forall_app. split; [|exact H2]. exact (proj1 (IH w (Hin w (or_introl eq_refl)) id') ca cn Hl). }
        apply Forall_app. exact (Hg fs (fun f H0 => H0) vs own child ns H Hin).
      - destruct v as [| | | | | | | |i l]; try discriminate. apply omap_some in H. destruct H as (vr & _ & Heq).
        injection Heq as -> -> ->. cbn [app]. destruct (ya_tag (t_attrs td)) as [t|]; [|constructor]. constructor; [|constructor].
        cbn. exact (Htag t eq_refl).
      - discriminate. }
    split; [|exact Hstart].
    intros ca cn H. rewrite encode_attrs_eq in H. unfold enc_type_attrs in H. destruct (nth_error E id) as [td|] eqn:Htd; [|discriminate].
    assert (Hd : omap (fun '(own, child, ns) => (own ++ child, ns_extend (declared (t_attrs td)) ns))
                   (enc_start x (encode x E) (encode_attrs x E) td v) = Some (ca, cn) ->
                 Forall (fun a => no_gt (name_repr (at_name a)) = true) ca).
    { intros Ho. apply omap_some in Ho. destruct Ho as ([[own child] ns] & Ho & Heq). injection Heq as -> ->.
      exact (Hstart td own child ns eq_refl Ho). }
    destruct (t_body td); try exact (Hd H). injection H as <- <-. constructor.
  Qed.

  Lemma undeclared_attrs : forall id, Undeclared E id -> 
    (forall v ca cn, encode_attrs x E id v = Some (ca, cn) -> cn = []) /\
    (forall td v own child ns, nth_error E id = Some td -> enc_start x (encode x E) (encode_attrs x E) td v = Some (own, child, ns) ->
       ns_extend (declared (t_attrs td)) ns = []).
  Proof.
    fix IH 2. intros id HU. 
    assert (Hstart : forall td v own child ns, nth_error E id = Some td ->
       enc_start x (encode x E) (encode_attrs x E) td v = Some (own, child, ns) -> ns_extend (declared (t_attrs td)) ns = []).
    { intros td v own child ns Htd H. destruct HU as [id td' k Htd' Hb|id td' vs d Htd' Hb Hns|id td' fs Htd' Hb Hns Hfl];
        rewrite Htd' in Htd; injection Htd as <-; unfold enc_start in H; rewrite Hb in H.
      - destruct v; discriminate.
      - unfold declared. rewrite Hns. destruct v; try discriminate. apply omap_some in H. destruct H as (vr & _ & Heq).
        injection Heq as -> -> ->. reflexivity.
      - unfold declared. rewrite Hns. cbn [map]. destruct v as [| | | | | | |vs|]; try discriminate.
        enough (ns = []) by (subst ns; reflexivity).
        revert H. generalize (VRec vs) as self. intros self H.
        assert (Hg : forall fs', (forall f, In f fs' -> In f fs) -> forall vs own child ns,
          enc_tag x (encode x E) (encode_attrs x E) (t_attrs td') self fs' vs = Some (own, child, ns) -> ns = []).
        { clear H vs own child ns. induction fs' as [|f fs' IHf]; intros Hsub [|w vs] own child ns H; cbn [enc_tag] in H; try discriminate.
          { injection H as <- <- <-. reflexivity. }
          destruct (enc_tag x (encode x E) (encode_attrs x E) (t_attrs td') self fs' vs) as [[[own' child'] ns']|] eqn:Ht; [|discriminate].
          pose proof (IHf (fun g Hg => Hsub g (or_intror Hg)) vs own' child' ns' Ht) as Hn. subst ns'.
          destruct (ya_attribute (f_attrs f)) eqn:Hat.
          - apply omap_some in H. destruct H as (l & Hl & Heq). injection Heq as -> -> ->. reflexivity.
          - assert (Hsame : Some (own', child', []) = Some (own, child, ns) -> ns = []).
            { intros Heq. injection Heq as <- <- <-. reflexivity. }
            destruct (ya_flatten (f_attrs f)) eqn:Hflat; [|exact (Hsame H)]. destruct (f_ty f) as [[s|id']|b|b|b] eqn:Hty; try exact (Hsame H).
            apply omap_some in H. destruct H as ([ca cn] & Hl & Heq). injection Heq as -> -> ->.
            pose proof (proj1 (IH id' (Hfl f id' (Hsub f (or_introl eq_refl)) Hat Hflat Hty)) w ca cn Hl) as ->. reflexivity. }
        exact (Hg fs (fun f H0 => H0) vs own child ns H). }
    split; [|exact Hstart].
    intros v ca cn H. rewrite encode_attrs_eq in H. unfold enc_type_attrs in H. destruct (nth_error E id) as [td|] eqn:Htd; [|discriminate].
    assert (Hd : omap (fun '(own, child, ns) => (own ++ child, ns_extend (declared (t_attrs td)) ns))
                   (enc_start x (encode x E) (encode_attrs x E) td v) = Some (ca, cn) -> cn = []).
    { intros Ho. apply omap_some in Ho. destruct Ho as ([[own child] ns] & Ho & Heq). injection Heq as -> ->.
      exact (Hstart td v own child ns eq_refl Ho). }
    destruct (t_body td); try exact (Hd H). injection H as <- <-. reflexivity.
  Qed.
End Tags.

(** ** C49 *)
Lemma content_text : forall x E id v ts, encode x E id v Inside = Some ts ->
  to_string_content (ser x E) id v = SOk (emit_text (EConf false None) (flat_map wtree ts)).
Proof.
  intros x E id v ts H. pose proof (proj2 (content_encode x E id v (flat_map wtree ts))) as Hc. rewrite H in Hc. specialize (Hc eq_refl).
  destruct (Hc (WState [] [] 0 true None) eq_refl) as (w' & H1 & H2 & _).
  unfold to_string_content. rewrite H1, H2. reflexivity.
Qed.

Lemma content_inside : forall x E td v o, own_content td v ->
  enc_content x (encode x E) (Under o) td v = enc_content x (encode x E) Inside td v.
Proof.
  intros x E td v o Ho. unfold enc_content. destruct (t_body td) as [fs|vars d|k] eqn:Hb; try reflexivity.
  destruct v as [| | | | | | | |i l]; try reflexivity. destruct (nth_error vars i) as [vr|] eqn:Hi; [|reflexivity].
  unfold enc_variant. destruct (v_body vr) as [|fl t|fs] eqn:Hv; try reflexivity.
  destruct l as [|w [|w' l]]; try reflexivity. unfold enc_payload. destruct t as [[s|id']|b|b|b]; try reflexivity.
  rewrite (Ho vars d i [w] vr fl id' Hb eq_refl Hi Hv). reflexivity.
Qed.

Theorem content_between : forall x E id td v t,
  nth_error E id = Some td -> has_element td -> plain_attributes E -> Undeclared E id -> own_content td v ->
  to_string x E id v = SOk t ->
  exists c t', to_string_content (ser x E) id v = SOk c /\ t = xml_decl +++ t' /\ between (root_name td) c t'.
Proof.
  intros x E id td v t Htd Hel HE HU Ho Ht.
  unfold to_string, to_string_with_config in Ht. pose proof (ser_events_encode x E id v) as He.
  destruct (encode x E id v (Under None)) as [ts|] eqn:Henc.
  2: { destruct (ser_events x E id v) as [l|m|]; try discriminate. exfalso. exact (He l eq_refl). }
  rewrite He in Ht. cbn [sbind_pure] in Ht. injection Ht as <-. change (econf_of config0) with (EConf true None).
  assert (Hts : exists a ks, ts = [WElem (qname (root_name td)) a [] ks] /\ encode x E id v Inside = Some ks /\
                             no_gt (show_attrs a) = true).
  { rewrite encode_eq in Henc. rewrite encode_eq. unfold enc_type in *. rewrite Htd in *. unfold root_name.
    assert (Hd : ya_flatten (t_attrs td) = false ->
      (if ya_flatten (t_attrs td) then enc_content x (encode x E) (Under None) td v
       else match enc_start x (encode x E) (encode_attrs x E) td v, enc_content x (encode x E) (Under None) td v with
            | Some (own, child, ns), Some ks =>
                Some [WElem (qname (opt_default (ser_root td) None)) (own ++ child) (ns_extend (declared (t_attrs td)) ns) ks]
            | _, _ => None
            end) = Some ts ->
      exists a ks, ts = [WElem (qname (ser_root td)) a [] ks] /\ enc_content x (encode x E) Inside td v = Some ks /\ no_gt (show_attrs a) = true).
    { intros Hfl. rewrite Hfl.
      destruct (enc_start x (encode x E) (encode_attrs x E) td v) as [[[own child] ns]|] eqn:Hst; [|discriminate].
      rewrite (content_inside x E td v None Ho). destruct (enc_content x (encode x E) Inside td v) as [ks|]; [|discriminate].
      intros Heq. injection Heq as <-. exists (own ++ child), ks.
      rewrite (proj2 (undeclared_attrs x E id HU) td v own child ns Htd Hst).
      split; [reflexivity|]. split; [reflexivity|]. apply no_gt_attrs.
      exact (proj2 (start_names x E HE (S (height v)) v (Nat.lt_succ_diag_r _) id) td own child ns Htd Hst). }
    destruct (t_body td) as [fs|vars d|k] eqn:Hb.
    - destruct Hel as [[k Hk]|Hel]; [congruence|]. exact (Hd Hel Henc).
    - destruct Hel as [[k Hk]|Hel]; [congruence|]. exact (Hd Hel Henc).
    - apply omap_some in Henc. destruct Henc as (tx & Htx & ->). exists [], [WTxt tx]. rewrite Htx. cbn. repeat split. }
  destruct Hts as (a & ks & -> & Hin & Hgt).
  exists (emit_text (EConf false None) (flat_map wtree ks)).
  cbn [flat_map wtree]. rewrite app_nil_r. rewrite (emit_element _ _ _ (nested_forest ks)), repr_qname.
  eexists. split; [exact (content_text _ _ _ _ _ Hin)|]. split; [reflexivity|].
  exists (show_attrs a). split; [exact Hgt|].
  destruct (flat_map wtree ks) as [|e l]; [right; split; reflexivity|left; reflexivity].
Qed.

(** [between] determines the content. *)
Lemma before_gt : forall a a' r r', no_gt a = true -> no_gt a' = true -> a +++ String ">" r = a' +++ String ">" r' -> a = a' /\ r = r'.
Proof.
  induction a as [|c a IH]; intros [|c' a'] r r' Ha Ha' H; cbn [String.append] in H.
  - injection H as ->. split; reflexivity.
  - injection H as <- _. discriminate.
  - injection H as -> _. discriminate.
  - injection H as <- H. unfold no_gt in Ha, Ha'. cbn [all_chars] in Ha, Ha'. apply Bool.andb_true_iff in Ha, Ha'.
    destruct (IH a' r r' (proj2 Ha) (proj2 Ha') H) as [-> ->]. split; reflexivity.
Qed.

(** ** C50: the document declaration *)
Lemma emit_after_text : forall c l j s m m',
  emit_from c (Emst j [] s [(m, true)]) l = emit_from c (Emst j [] s [(m', true)]) l.
Proof.
  intros c. induction l as [|e l IH]; intros j s m m'; [reflexivity|]. cbn [emit_from].
  destruct e as [n a ns|o|t|t]; cbn [emit1 em_just em_names em_nss em_flags set_markup set_text_flag].
  - unfold indent_before_start. cbn [em_flags top_flags negb andb]. reflexivity.
  - f_equal. apply IH.
  - f_equal. apply IH.
  - f_equal. apply IH.
Qed.
Definition starts_element (l : list wevent) : bool := match l with WStart _ _ _ :: _ => true | _ => false end.
Lemma emit_decl : forall ind l, Nested l ->
  emit_from (EConf true ind) (em0 true) l =
  (match ind with Some _ => if starts_element l then nl else "" | None => "" end) +++ emit_from (EConf false ind) (em0 false) l.
Proof.
  intros ind l Hl.
  assert (Hc : forall l st, emit_from (EConf true ind) st l = emit_from (EConf false ind) st l).
  { induction l0 as [|e l0 IH]; intros st; [reflexivity|]. cbn [emit_from].
    assert (He : emit1 (EConf true ind) st e = emit1 (EConf false ind) st e) by reflexivity.
    rewrite He. destruct (emit1 (EConf false ind) st e) as [t st']. f_equal. apply IH. }
  rewrite Hc. unfold em0. destruct Hl as [|s l Hl|s l Hl|n a m body l Hb Hl].
  - destruct ind; reflexivity.
  - cbn [emit_from emit1 em_just em_names em_nss em_flags set_text_flag starts_element].
    rewrite (emit_after_text _ l false [] true false). destruct ind; reflexivity.
  - cbn [emit_from emit1 em_just em_names em_nss em_flags set_text_flag starts_element].
    rewrite (emit_after_text _ l false [] true false). destruct ind; reflexivity.
  - cbn [emit_from emit1 em_just em_names em_nss em_flags set_markup starts_element].
    unfold indent_before_start. cbn [ec_indent em_flags em_names top_flags List.length].
    destruct ind as [i|]; [|reflexivity]. cbn [negb andb orb Nat.ltb Nat.leb repeat_str].
    rewrite !sapp_assoc. reflexivity.
Qed.

(** White space in front of a document. *)
Definition set_buf (st : pst) (b : string) : pst :=
  Pst (p_mode st) (p_out st) (p_stack st) (p_names st) (p_nss st) (p_raw st) b (p_nonws st) (p_seen st).
Definition alike (st st' : pst) : Prop := st' = st \/ (p_stack st = [] /\ exists b, st' = set_buf st b).

Lemma alike_step : forall st st' c, alike st st' -> alike (pstep st c) (pstep st' c).
Proof.
  intros st st' c [->|[Hs [b ->]]]; [left; reflexivity|].
  destruct st as [md out stk nms nss raw buf nw seen]. cbn [p_stack] in Hs. subst stk. unfold set_buf. cbn [p_mode p_out p_stack p_names p_nss p_raw p_nonws p_seen].
  assert (Hset : forall m, alike (Pst m out [] nms nss raw buf nw seen) (Pst m out [] nms nss raw b nw seen)).
  { intros m. right. split; [reflexivity|]. exists b. reflexivity. }
  assert (Hfl : forall m, alike (flush (Pst md out [] nms nss raw buf nw seen) m) (flush (Pst md out [] nms nss raw b nw seen) m)).
  { intros m. unfold flush. cbn. destruct nw; [apply Hset|left; reflexivity]. }
  assert (Hst : forall q ats e, alike (start_tag (Pst md out [] nms nss raw buf nw seen) q ats e) (start_tag (Pst md out [] nms nss raw b nw seen) q ats e)).
  { intros q ats e. unfold start_tag. destruct (bad_tag q ats); [apply Hset|]. cbn.
    destruct (resolve_elem _ q); [|apply Hset]. destruct (resolve_attrs _ ats); [|apply Hset]. left. destruct e; reflexivity. }
  unfold pstep. destruct (illegal_char c).
  { cbn. destruct md; apply Hset. }
  cbn [p_mode]. destruct md; cbn -[start_tag flush];
    repeat match goal with
           | |- alike (start_tag _ _ _ _) _ => apply Hst
           | |- alike (flush _ _) _ => apply Hfl
           | |- alike (Pst _ _ _ _ _ _ _ _ _) _ => apply Hset
           | |- alike (if ?e then _ else _) _ => destruct e
           | |- alike (match ?e with _ => _ end) _ => destruct e
           | |- alike (set_mode _ _) _ => apply Hset
           | |- alike (pfail _ _) _ => apply Hset
           end; try apply Hset.
  all: unfold end_raw, unesc; cbn [p_raw p_out p_stack p_names p_nss p_buf p_nonws p_seen]; try destruct (unesc_aux None raw); right; (split; [reflexivity|eexists; unfold set_buf; cbn; reflexivity]).
Qed.

(** Failed in the same way, differing in the text collected only, or still in
    front of the first tag with a line end more. *)
Definition met (st st' : pst) : Prop :=
  alike st st' \/
  (exists m, p_mode st = MFail m /\ p_mode st' = MFail m /\ p_out st = p_out st') \/
  (exists out nms nss raw buf nw seen,
     st = Pst MContent out [] nms nss raw buf nw seen /\ st' = Pst MContent out [] nms nss (nl +++ raw) buf nw seen).

Lemma failed_step : forall st c m, p_mode st = MFail m -> pstep st c = st.
Proof. intros st c m H. unfold pstep. rewrite H. destruct (illegal_char c); reflexivity. Qed.
Lemma unesc_nl : forall r, unesc (nl +++ r) = match unesc r with Some t => Some (nl +++ t) | None => None end.
Proof. reflexivity. Qed.
Lemma nonws_nl : forall t, str_nonws (nl +++ t) = str_nonws t.
Proof. reflexivity. Qed.

Lemma met_step : forall st st' c, met st st' -> met (pstep st c) (pstep st' c).
Proof.
  intros st st' c [H|[(m & H1 & H2 & H3)|(out & nms & nss & raw & buf & nw & seen & -> & ->)]].
  - left. apply alike_step. exact H.
  - right. left. exists m. rewrite (failed_step st c m H1), (failed_step st' c m H2). repeat split; assumption.
  - unfold pstep. cbn [p_mode]. destruct (illegal_char c).
    { right. left. eexists. repeat split; reflexivity. }
    destruct (Ascii.eqb c "<").
    + unfold end_raw. cbn [p_raw p_out p_stack p_names p_nss p_buf p_nonws p_seen]. rewrite unesc_nl. destruct (unesc raw) as [t|].
      * left. right. split; [reflexivity|]. eexists. rewrite nonws_nl. reflexivity.
      * right. left. eexists. repeat split; reflexivity.
    + right. right. cbn [p_raw p_out p_stack p_names p_nss p_buf p_nonws p_seen].
      exists out, nms, nss, (add1 raw c), buf, nw, seen. split; reflexivity.
Qed.
Lemma met_finish : forall st st', met st st' -> pfinish st = pfinish st'.
Proof.
  intros st st' [[->|[Hs [b ->]]]|[(m & H1 & H2 & H3)|(out & nms & nss & raw & buf & nw & seen & -> & ->)]].
  - reflexivity.
  - destruct st as [md out stk nms nss raw buf nw seen]. cbn [p_stack] in Hs. subst stk. unfold pfinish, set_buf. cbn [p_mode p_out].
    destruct md; try reflexivity. unfold end_raw. cbn [p_raw p_out p_stack p_names p_nss p_buf p_nonws p_seen].
    destruct (unesc raw); reflexivity.
  - unfold pfinish. rewrite H1, H2, H3. reflexivity.
  - unfold pfinish. cbn [p_mode]. unfold end_raw. cbn [p_raw p_out p_stack p_names p_nss p_buf p_nonws p_seen]. rewrite unesc_nl.
    destruct (unesc raw) as [t|]; [rewrite nonws_nl|]; reflexivity.
Qed.
Lemma parse_nl : forall s, parse_text (nl +++ s) = parse_text s.
Proof.
  intros s. unfold parse_text. rewrite prun_app. symmetry. apply met_finish.
  assert (H : forall s st st', met st st' -> met (prun st s) (prun st' s)).
  { induction s0 as [|c s0 IH]; intros st st' H; [exact H|]. cbn [prun]. apply IH. apply met_step. exact H. }
  apply H. right. right. exists [EStartDoc], [], [], "", "", false, false. split; reflexivity.
Qed.
Lemma parse_decl : forall s, parse_text (xml_decl +++ s) = parse_text s.
Proof.
  intros s. unfold parse_text. rewrite prun_app. 
  replace (prun p0 xml_decl) with p0 by (vm_compute; reflexivity). reflexivity.
Qed.

Theorem declaration_prefix : forall x E i ind id v t,
  to_string_with_config x E (Config i true ind) id v = SOk t ->
  exists t', to_string_with_config x E (Config i false ind) id v = SOk t' /\
    ((t = "" /\ t' = "") \/ t = xml_decl +++ t' \/ (i = true /\ t = xml_decl +++ nl +++ t')).
Proof.
  intros x E i ind id v t H. unfold to_string_with_config in *. destruct (ser_events x E id v) as [l|m|] eqn:He; try discriminate.
  cbn [sbind_pure] in *. injection H as <-. eexists. split; [reflexivity|].
  pose proof (ser_nested x E id v l He) as Hn.
  unfold econf_of. cbn [c_decl c_indent c_indent_string].
  destruct l as [|e l]; [left; split; reflexivity|]. right. unfold emit_text. cbn [ec_decl].
  rewrite (emit_decl (if i then Some (opt_default "  " ind) else None) (e :: l) Hn).
  destruct i; [|left; reflexivity].
  destruct (starts_element (e :: l)); [right; split; reflexivity|left; reflexivity].
Qed.
Theorem declaration_reads : forall x E i ind id v t t' x' E' fuel id',
  to_string_with_config x E (Config i true ind) id v = SOk t ->
  to_string_with_config x E (Config i false ind) id v = SOk t' ->
  from_str x' E' fuel id' t = from_str x' E' fuel id' t'.
Proof.
  intros x E i ind id v t t' x' E' fuel id' H H'.
  destruct (declaration_prefix x E i ind id v t H) as (t'' & H'' & Hc). rewrite H' in H''. injection H'' as <-.
  destruct Hc as [[-> ->]|[->|[_ ->]]]; [reflexivity| |]; unfold from_str.
  - rewrite parse_decl. reflexivity.
  - rewrite parse_decl, parse_nl. reflexivity.
Qed.

(** The content of an element is determined by its text. *)
Lemma append_cancel : forall a b c, a +++ b = a +++ c -> b = c.
Proof. induction a as [|ch a IH]; intros b c H; [exact H|]. cbn [String.append] in H. injection H as H. exact (IH b c H). Qed.
Lemma append_cancel_r : forall c a b, a +++ c = b +++ c -> a = b.
Proof.
  intros c a b H. assert (Hl : String.length a = String.length b).
  { apply (f_equal String.length) in H. rewrite !TextProofs.length_app in H. lia. }
  revert b H Hl. induction a as [|ch a IH]; intros [|ch' b] H Hl; try discriminate; [reflexivity|].
  cbn [String.append] in H. injection H as <- H. f_equal. apply IH; [exact H|]. injection Hl as Hl. exact Hl.
Qed.
Theorem between_determined : forall q c c' t, between q c t -> between q c' t -> c = c'.
Proof.
  assert (Hsl : forall q a a' c, no_gt a = true -> no_gt a' = true ->
            "<" +++ q +++ a +++ ">" +++ c +++ "</" +++ q +++ ">" = "<" +++ q +++ a' +++ " />" -> False).
  { intros q a a' c Ha Ha' H. apply append_cancel, append_cancel in H.
    replace (a' +++ " />") with ((a' +++ " /") +++ String ">" "") in H by (rewrite sapp_assoc; reflexivity).
    apply before_gt in H; [|exact Ha|rewrite no_gt_app, Ha'; reflexivity]. destruct H as [_ H].
    apply (f_equal String.length) in H. rewrite !TextProofs.length_app in H. cbn in H. lia. }
  intros q c c' t (a & Ha & [->|[-> ->]]) (a' & Ha' & [H|[-> H]]).
  - apply append_cancel, append_cancel in H. apply before_gt in H; [|exact Ha|exact Ha']. destruct H as [_ H].
    exact (append_cancel_r _ _ _ H).
  - exfalso. exact (Hsl q a a' c Ha Ha' H).
  - exfalso. symmetry in H. exact (Hsl q a' a c' Ha' Ha H).
  - reflexivity.
Qed.
