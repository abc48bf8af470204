From Verif Require Import Str Num Xml XmlText Reader Schema De Ser SpecTree SpecText SpecNum SpecTyped SpecStruct SpecSer SpecEnc
  EncProofs SerProofs SpecWithin.
Open Scope list_scope.

(** What a successful run appends. *)
Lemma ser_appends : forall x E id v w u, ser x E id v (fun _ => false) w = (SOk tt, u) ->
  exists ts, encode x E id v (how_of w) = Some ts /\ w_evs u = w_evs w ++ flat_map wtree ts.
Proof.
  intros x E id v w u H.
  pose proof (ser_agrees x E never (covers_never E) id v (how_of w) w eq_refl) as Ha.
  change (fun _ : nat => false) with never in H. rewrite H in Ha.
  destruct (encode x E id v (how_of w)) as [ts|]; cbn [omap] in Ha; [|exfalso; apply Ha; reflexivity].
  exists ts. split; [reflexivity|].
  destruct (writes_forest ts w) as (u' & U1 & _ & U3). rewrite U1 in Ha. destruct Ha as [Hc _].
  unfold core in Hc. cbn in Hc. injection Hc as Hc _ _. congruence.
Qed.

(** Derived types: the content, inside of an element or not. *)
Lemma derived_frame : forall x E id td v w ts,
  nth_error E id = Some td -> (forall k, t_body td <> DPrim k) ->
  encode x E id v (how_of w) = Some ts ->
  exists ks, enc_content x (encode x E) (how_of w) td v = Some ks /\
             Frame (opens td w) (flat_map wtree ks) (flat_map wtree ts).
Proof.
  intros x E id td v w ts Htd Hnp H. rewrite encode_eq in H. unfold enc_type in H. rewrite Htd in H.
  unfold opens, Frame. unfold how_of in *.
  destruct (t_body td) as [fs|vars d|k] eqn:Hb; [| |destruct (Hnp k); reflexivity];
    (destruct (w_skip w); cbn [negb];
     [rewrite andb_false_r; eauto|];
     destruct (ya_flatten (t_attrs td)); cbn [negb andb]; [eauto|];
     destruct (enc_start x (encode x E) (encode_attrs x E) td v) as [[[own child] ns]|]; [|discriminate];
     destruct (enc_content x (encode x E) (Under (w_name w)) td v) as [ks|]; [|discriminate];
     injection H as <-; exists ks; split; [reflexivity|]; cbn [flat_map wtree]; rewrite app_nil_r; eauto).
Qed.

Theorem field_among : forall x E id td fs1 f fs2 vs1 v vs2 w u,
  struct_type E id td (fs1 ++ f :: fs2) -> List.length vs1 = List.length fs1 ->
  ser x E id (VRec (vs1 ++ v :: vs2)) (fun _ => false) w = (SOk tt, u) ->
  exists p, FieldOut x E (t_attrs td) (VRec (vs1 ++ v :: vs2)) f v p /\
    Among x E td (VRec (vs1 ++ v :: vs2)) fs1 vs1 p fs2 vs2 w u.
Proof.
  intros x E id td fs1 f fs2 vs1 v vs2 w u [Htd Hb] Hlen H.
  apply ser_appends in H. destruct H as (ts & Ht & Hu).
  destruct (derived_frame _ _ _ _ _ _ _ Htd ltac:(intros k; rewrite Hb; discriminate) Ht) as (ks & Hk & Hf).
  unfold enc_content in Hk. rewrite Hb in Hk. apply fields_out in Hk. destruct Hk as (parts & Hp & Hc).
  apply Forall3_app_inv in Hp; [|exact Hlen]. destruct Hp as (p1 & p & p2 & -> & H1 & H2 & H3).
  exists p. split; [exact H2|]. exists p1, p2, (flat_map wtree ts).
  rewrite <- concat_mid, Hc. repeat split; assumption.
Qed.

Theorem same_field_among : forall x E id td fs1 f fs2 vs1 v vs2 w u id' td' fs1' fs2' vs1' vs2' w' u',
  struct_type E id td (fs1 ++ f :: fs2) -> struct_type E id' td' (fs1' ++ f :: fs2') ->
  ya_default_namespace (t_attrs td) = ya_default_namespace (t_attrs td') ->
  List.length vs1 = List.length fs1 -> List.length vs1' = List.length fs1' ->
  (forall g, ya_skip_if (f_attrs f) = Some g ->
     x_skip_if x g (VRec (vs1 ++ v :: vs2)) v = x_skip_if x g (VRec (vs1' ++ v :: vs2')) v) ->
  ser x E id (VRec (vs1 ++ v :: vs2)) (fun _ => false) w = (SOk tt, u) ->
  ser x E id' (VRec (vs1' ++ v :: vs2')) (fun _ => false) w' = (SOk tt, u') ->
  exists p,
    Among x E td (VRec (vs1 ++ v :: vs2)) fs1 vs1 p fs2 vs2 w u /\
    Among x E td' (VRec (vs1' ++ v :: vs2')) fs1' vs1' p fs2' vs2' w' u'.
Proof.
  intros x E id td fs1 f fs2 vs1 v vs2 w u id' td' fs1' fs2' vs1' vs2' w' u' Hst Hst' Hns Hl Hl' Hself H H'.
  destruct (field_among _ _ _ _ _ _ _ _ _ _ _ _ Hst Hl H) as (p & Hp & Hs).
  destruct (field_among _ _ _ _ _ _ _ _ _ _ _ _ Hst' Hl' H') as (p' & Hp' & Hs').
  assert (p = p') by (eapply field_function; eassumption). subst p'. exists p. split; assumption.
Qed.

(** ** C22 in any struct and any state *)
Lemma vec_among : forall x E id td fs1 f fs2 vs1 items vs2 w u b,
  struct_type E id td (fs1 ++ f :: fs2) -> List.length vs1 = List.length fs1 ->
  plain_element f -> f_ty f = TVec b -> base_has_element E b ->
  ~ suppressed x (VRec (vs1 ++ VVec items :: vs2)) f (VVec items) ->
  ser x E id (VRec (vs1 ++ VVec items :: vs2)) (fun _ => false) w = (SOk tt, u) ->
  exists parts,
    Among x E td (VRec (vs1 ++ VVec items :: vs2)) fs1 vs1 (concat parts) fs2 vs2 w u /\
    Forall2 (fun v part => one_element (qname (field_qname (t_attrs td) f)) part /\
                           ItemOut x E false (field_qname (t_attrs td) f) b v part) items parts.
Proof.
  intros x E id td fs1 f fs2 vs1 items vs2 w u b Hst Hlen (Hpa & Hpt & Hpc & Hpf) Hty Hb Hns H.
  destruct (field_among _ _ _ _ _ _ _ _ _ _ _ _ Hst Hlen H) as (p & Hp & Hs).
  inversion Hp; subst; try congruence; try contradiction.
  match goal with H : items_of _ _ = Some _ |- _ => rewrite Hty in H; injection H as <- end.
  exists parts. split; [exact Hs|].
  match goal with H : Forall2 _ items parts |- _ => rewrite Hpf, Hty in H; cbn [base_type] in H; clear -H Hb;
    induction H; constructor; auto; split; [eapply item_one; eassumption|assumption] end.
Qed.

Lemma none_among : forall x E id td fs1 f fs2 vs1 vs2 w u b,
  struct_type E id td (fs1 ++ f :: fs2) -> List.length vs1 = List.length fs1 ->
  ya_text (f_attrs f) = false -> f_ty f = TOpt b \/ f_ty f = TOptVec b ->
  ser x E id (VRec (vs1 ++ VOpt None :: vs2)) (fun _ => false) w = (SOk tt, u) ->
  Among x E td (VRec (vs1 ++ VOpt None :: vs2)) fs1 vs1 [] fs2 vs2 w u.
Proof.
  intros x E id td fs1 f fs2 vs1 vs2 w u b Hst Hlen Hpt Hty H.
  destruct (field_among _ _ _ _ _ _ _ _ _ _ _ _ Hst Hlen H) as (p & Hp & Hs).
  inversion Hp; subst; try congruence.
  assert (items = []). { match goal with H : items_of _ _ = Some _ |- _ => destruct Hty as [Hty|Hty]; rewrite Hty in H; injection H as <- end; reflexivity. }
  subst. match goal with H : Forall2 _ [] _ |- _ => inversion H; subst end. exact Hs.
Qed.

Lemma some_among : forall x E id td fs1 f fs2 vs1 v vs2 w u b,
  struct_type E id td (fs1 ++ f :: fs2) -> List.length vs1 = List.length fs1 ->
  plain_element f -> f_ty f = TOpt b -> base_has_element E b ->
  ~ suppressed x (VRec (vs1 ++ VOpt (Some v) :: vs2)) f (VOpt (Some v)) ->
  ser x E id (VRec (vs1 ++ VOpt (Some v) :: vs2)) (fun _ => false) w = (SOk tt, u) ->
  exists part,
    Among x E td (VRec (vs1 ++ VOpt (Some v) :: vs2)) fs1 vs1 part fs2 vs2 w u /\
    one_element (qname (field_qname (t_attrs td) f)) part /\
    ItemOut x E false (field_qname (t_attrs td) f) b v part.
Proof.
  intros x E id td fs1 f fs2 vs1 v vs2 w u b Hst Hlen (Hpa & Hpt & Hpc & Hpf) Hty Hb Hns H.
  destruct (field_among _ _ _ _ _ _ _ _ _ _ _ _ Hst Hlen H) as (p & Hp & Hs).
  inversion Hp; subst; try congruence; try contradiction.
  match goal with H : items_of _ _ = Some _ |- _ => rewrite Hty in H; injection H as <- end.
  match goal with H : Forall2 _ [v] parts |- _ => rewrite Hpf, Hty in H; inversion H as [|? ? ? ? Hi Hr]; subst; inversion Hr; subst end.
  cbn [concat] in Hs. rewrite app_nil_r in Hs. eexists. split; [exact Hs|]. split; [eapply item_one; eassumption|exact Hi].
Qed.

(** ** Struct-like variants *)
Lemma named_out : forall x E ra f v ts, enc_named_field x (encode x E) ra f v = Some ts ->
  NamedOut x E ra f v (flat_map wtree ts).
Proof.
  intros x E ra f v ts H. unfold enc_named_field in H.
  destruct (f_ty f) as [[s|id]|b|[s|id]|b] eqn:Ht.
  - apply omap_some in H. destruct H as (t & Hs & ->). eapply no_simple; eassumption.
  - eapply no_user; [eassumption|]. apply written_encode. rewrite H. reflexivity.
  - destruct v as [| | | | |o| | |]; try discriminate. injection H as <-. apply no_option with (b := b). auto.
  - destruct v as [| | | | | |l| |]; try discriminate.
    assert (Hx : exists texts, Forall2 (fun v t => show_simple x s v = Some t) l texts /\ flat_map wtree ts = map WChars texts).
    { revert ts H. induction l as [|a l IH]; intros ts H; [injection H as <-; exists []; split; [constructor|reflexivity]|].
      cbn [oconcat] in H. apply oapp_some in H. destruct H as (t1 & t2 & H1 & H2 & ->).
      destruct (IH t2 H2) as (texts & Hf & Hm).
      assert (exists t, show_simple x s a = Some t /\ t1 = [WTxt t]) as (t & Hs & ->).
      { cbn [enc_item] in H1. destruct s; try discriminate; apply omap_some in H1; destruct H1 as (t0 & Hs & ->); eauto. }
      exists (t :: texts). split; [constructor; assumption|]. rewrite flat_map_app, Hm. reflexivity. }
    destruct Hx as (texts & Hf & ->). eapply no_simples; eassumption.
  - destruct v as [| | | | | |l| |]; try discriminate.
    assert (Hx : exists parts, Forall2 (Written x E id (Some (field_qname ra f))) l parts /\ flat_map wtree ts = concat parts).
    { clear Ht. revert ts H. induction l as [|a l IH]; intros ts H; [injection H as <-; exists []; split; [constructor|reflexivity]|].
      cbn [oconcat] in H. apply oapp_some in H. destruct H as (t1 & t2 & H1 & H2 & ->).
      destruct (IH t2 H2) as (parts & Hf & Hm). exists (flat_map wtree t1 :: parts). split.
      - constructor; [|exact Hf]. apply written_encode. cbn [enc_item] in H1. rewrite H1. reflexivity.
      - rewrite flat_map_app, Hm. reflexivity. }
    destruct Hx as (parts & Hf & ->). eapply no_users; eassumption.
  - destruct v as [| | | | |o| | |]; try discriminate. injection H as <-. apply no_option with (b := b). auto.
Qed.

Lemma nameds_out : forall x E ra fs vs ts, enc_named_fields x (encode x E) ra fs vs = Some ts ->
  exists parts, Forall3 (NamedOut x E ra) fs vs parts /\ concat parts = flat_map wtree ts.
Proof.
  intros x E ra. induction fs as [|f fs IH]; intros [|v vs] ts H; try discriminate.
  - injection H as <-. exists []. split; [constructor|reflexivity].
  - cbn [enc_named_fields] in H. apply oapp_some in H. destruct H as (t1 & t2 & H1 & H2 & ->).
    destruct (IH vs t2 H2) as (parts & Hp1 & Hp2). exists (flat_map wtree t1 :: parts). split.
    + constructor; [|exact Hp1]. apply named_out; exact H1.
    + cbn [concat]. rewrite Hp2, flat_map_app. reflexivity.
Qed.

Lemma named_function : forall x E ra ra' f v p p',
  ya_default_namespace ra = ya_default_namespace ra' ->
  NamedOut x E ra f v p -> NamedOut x E ra' f v p' -> p = p'.
Proof.
  intros x E ra ra' f v p p' Hns H H'.
  assert (Hq : field_qname ra' f = field_qname ra f) by (unfold field_qname; rewrite Hns; reflexivity).
  destruct H as [s v t Ht Hs|id v l Ht Hw|id items parts Ht Hw|s items texts Ht Hs|b o Ht];
  inversion H' as [s' v' t' Ht' Hs'|id' v' l' Ht' Hw'|id' items' parts' Ht' Hw'|s' items' texts' Ht' Hs'|b' o' Ht'];
  subst; try rewrite Hq in *; try congruence; try (destruct Ht; congruence); try (destruct Ht'; congruence); try reflexivity.
  - assert (id' = id) by congruence. subst. eapply written_function; eassumption.
  - assert (id' = id) by congruence. subst. f_equal. clear -Hw Hw'. revert parts' Hw'.
    induction Hw; intros q Hw'; inversion Hw'; subst; [reflexivity|].
    f_equal; [eapply written_function; eassumption|auto].
  - assert (s' = s) by congruence. subst. f_equal. clear -Hs Hs'. revert texts' Hs'.
    induction Hs; intros q Hs'; inversion Hs'; subst; [reflexivity|].
    f_equal; [congruence|auto].
Qed.

Lemma named_among : forall x E id td i vr fs1 f fs2 vs1 v vs2 w u,
  variant_of E id td i vr -> v_body vr = VbNamed (fs1 ++ f :: fs2) -> List.length vs1 = List.length fs1 ->
  ser x E id (VVar i (vs1 ++ v :: vs2)) (fun _ => false) w = (SOk tt, u) ->
  exists p, NamedOut x E (t_attrs td) f v p /\ AmongNamed x E td fs1 vs1 p fs2 vs2 w u.
Proof.
  intros x E id td i vr fs1 f fs2 vs1 v vs2 w u (Htd & vars & d & Hb & Hi) Hv Hlen H.
  apply ser_appends in H. destruct H as (ts & Ht & Hu).
  destruct (derived_frame _ _ _ _ _ _ _ Htd ltac:(intros k; rewrite Hb; discriminate) Ht) as (ks & Hk & Hf).
  unfold enc_content in Hk. rewrite Hb, Hi in Hk. unfold enc_variant in Hk. rewrite Hv in Hk.
  assert (Hk' : enc_named_fields x (encode x E) (t_attrs td) (fs1 ++ f :: fs2) (vs1 ++ v :: vs2) = Some ks).
  { destruct (vs1 ++ v :: vs2) as [|? [|]]; exact Hk. }
  apply nameds_out in Hk'. destruct Hk' as (parts & Hp & Hc).
  apply Forall3_app_inv in Hp; [|exact Hlen]. destruct Hp as (p1 & p & p2 & -> & H1 & H2 & H3).
  exists p. split; [exact H2|]. exists p1, p2, (flat_map wtree ts).
  rewrite <- concat_mid, Hc. repeat split; assumption.
Qed.

Theorem same_named_among : forall x E id td i vr fs1 f fs2 vs1 v vs2 w u id' td' i' vr' fs1' fs2' vs1' vs2' w' u',
  variant_of E id td i vr -> v_body vr = VbNamed (fs1 ++ f :: fs2) ->
  variant_of E id' td' i' vr' -> v_body vr' = VbNamed (fs1' ++ f :: fs2') ->
  ya_default_namespace (t_attrs td) = ya_default_namespace (t_attrs td') ->
  List.length vs1 = List.length fs1 -> List.length vs1' = List.length fs1' ->
  ser x E id (VVar i (vs1 ++ v :: vs2)) (fun _ => false) w = (SOk tt, u) ->
  ser x E id' (VVar i' (vs1' ++ v :: vs2')) (fun _ => false) w' = (SOk tt, u') ->
  exists p, AmongNamed x E td fs1 vs1 p fs2 vs2 w u /\ AmongNamed x E td' fs1' vs1' p fs2' vs2' w' u'.
Proof.
  intros x E id td i vr fs1 f fs2 vs1 v vs2 w u id' td' i' vr' fs1' fs2' vs1' vs2' w' u' Hv Hb Hv' Hb' Hns Hl Hl' H H'.
  destruct (named_among _ _ _ _ _ _ _ _ _ _ _ _ _ _ Hv Hb Hl H) as (p & Hp & Hs).
  destruct (named_among _ _ _ _ _ _ _ _ _ _ _ _ _ _ Hv' Hb' Hl' H') as (p' & Hp' & Hs').
  assert (p = p') by (eapply named_function; eassumption). subst p'. exists p. split; assumption.
Qed.

(** ** Payloads *)
Theorem same_payload : forall x E id td i vr fl t v w u w' u',
  variant_of E id td i vr -> v_body vr = VbNew fl t ->
  (fl = true \/ ya_flatten (v_attrs vr) = true -> forall id, t <> TBase (BUser id)) ->
  ser x E id (VVar i [v]) (fun _ => false) w = (SOk tt, u) ->
  ser x E id (VVar i [v]) (fun _ => false) w' = (SOk tt, u') ->
  exists p l l', Frame (opens td w) p l /\ w_evs u = w_evs w ++ l /\
                 Frame (opens td w') p l' /\ w_evs u' = w_evs w' ++ l'.
Proof.
  intros x E id td i vr fl t v w u w' u' (Htd & vars & d & Hb & Hi) Hv Hfl H H'.
  apply ser_appends in H. destruct H as (ts & Ht & Hu). apply ser_appends in H'. destruct H' as (ts' & Ht' & Hu').
  destruct (derived_frame _ _ _ _ _ _ _ Htd ltac:(intros k; rewrite Hb; discriminate) Ht) as (ks & Hk & Hf).
  destruct (derived_frame _ _ _ _ _ _ _ Htd ltac:(intros k; rewrite Hb; discriminate) Ht') as (ks' & Hk' & Hf').
  unfold enc_content in Hk, Hk'. rewrite Hb, Hi in Hk, Hk'. unfold enc_variant in Hk, Hk'. rewrite Hv in Hk, Hk'.
  assert (ks = ks').
  { unfold enc_payload in Hk, Hk'. destruct t as [[s|id']|b|b|b]; try congruence.
    destruct (ya_flatten (v_attrs vr) || fl)%bool eqn:Hx; [|congruence].
    exfalso. apply (Hfl ltac:(apply orb_true_iff in Hx; tauto) id'). reflexivity. }
  subst ks'. exists (flat_map wtree ks), (flat_map wtree ts), (flat_map wtree ts'). repeat split; assumption.
Qed.

(** ** Attributes *)
Lemma attr_text_function : forall x E b v t t', AttrText x E b v t -> AttrText x E b v t' -> t = t'.
Proof.
  intros x E b v t t' H H'. destruct H as [s v t H|id v l H]; inversion H'; subst; [congruence|].
  match goal with H1 : Content x E id v _ |- _ => apply content_encode in H1 end. apply content_encode in H.
  f_equal. congruence.
Qed.

Lemma attr_function : forall x E ra ra' self self' f v p p',
  ya_default_namespace ra = ya_default_namespace ra' ->
  (forall g, ya_skip_if (f_attrs f) = Some g -> x_skip_if x g self v = x_skip_if x g self' v) ->
  AttrOut x E ra self f v p -> AttrOut x E ra' self' f v p' -> p = p'.
Proof.
  intros x E ra ra' self self' f v p p' Hns Hself H H'.
  assert (Hq : field_qname ra' f = field_qname ra f) by (unfold field_qname; rewrite Hns; reflexivity).
  assert (Hsu : unneeded x self f v <-> unneeded x self' f v).
  { unfold unneeded. split; (intros [(g & Hg & Hs)|Hs]; [left; exists g; split; [exact Hg|]|right; exact Hs]);
      [rewrite <- (Hself g Hg)|rewrite (Hself g Hg)]; exact Hs. }
  inversion H; subst; inversion H'; subst; try congruence; try tauto;
    repeat match goal with H : _ \/ _ |- _ => destruct H as [[? ?]|[? ?]] end; subst; try congruence.
  - assert (b0 = b) by congruence. subst. rewrite Hq. do 2 f_equal. eapply attr_text_function; eassumption.
  - assert (b0 = b) by congruence. match goal with H : VOpt (Some ?a) = VOpt (Some ?c) |- _ => injection H as -> end.
    subst. rewrite Hq. do 2 f_equal. eapply attr_text_function; eassumption.
Qed.

Lemma attr_among : forall x E id td fs1 f fs2 vs1 v vs2 o l,
  struct_type E id td (fs1 ++ f :: fs2) -> ya_flatten (t_attrs td) = false -> List.length vs1 = List.length fs1 ->
  ya_attribute (f_attrs f) = true ->
  Written x E id o (VRec (vs1 ++ v :: vs2)) l ->
  exists p, AttrOut x E (t_attrs td) (VRec (vs1 ++ v :: vs2)) f v p /\
    AmongAttrs x E td (VRec (vs1 ++ v :: vs2)) fs1 vs1 p fs2 vs2 l.
Proof.
  intros x E id td fs1 f fs2 vs1 v vs2 o l Hst Hfl Hlen Hat H.
  destruct (struct_out _ _ _ _ _ _ _ _ Hst Hfl H) as (own & child & m' & parts & aparts & -> & _ & Hp & -> & Hch).
  apply Forall3_app_inv in Hp; [|exact Hlen]. destruct Hp as (p1 & c & p2 & -> & H1 & H2 & H3).
  exists c. split; [exact H2|]. do 3 eexists. exists p1, p2, child.
  split; [rewrite concat_mid, <- !app_assoc; reflexivity|]. split; [exact H1|]. split; [exact H3|].
  intros Hf. apply Hch. unfold flattens in *. rewrite existsb_app in *. cbn [existsb]. unfold flat_field at 2. rewrite Hat. exact Hf.
Qed.

Theorem same_attr_among : forall x E id td fs1 f fs2 vs1 v vs2 o l id' td' fs1' fs2' vs1' vs2' o' l',
  struct_type E id td (fs1 ++ f :: fs2) -> struct_type E id' td' (fs1' ++ f :: fs2') ->
  ya_flatten (t_attrs td) = false -> ya_flatten (t_attrs td') = false ->
  ya_attribute (f_attrs f) = true ->
  ya_default_namespace (t_attrs td) = ya_default_namespace (t_attrs td') ->
  List.length vs1 = List.length fs1 -> List.length vs1' = List.length fs1' ->
  (forall g, ya_skip_if (f_attrs f) = Some g ->
     x_skip_if x g (VRec (vs1 ++ v :: vs2)) v = x_skip_if x g (VRec (vs1' ++ v :: vs2')) v) ->
  Written x E id o (VRec (vs1 ++ v :: vs2)) l -> Written x E id' o' (VRec (vs1' ++ v :: vs2')) l' ->
  exists p,
    AmongAttrs x E td (VRec (vs1 ++ v :: vs2)) fs1 vs1 p fs2 vs2 l /\
    AmongAttrs x E td' (VRec (vs1' ++ v :: vs2')) fs1' vs1' p fs2' vs2' l'.
Proof.
  intros x E id td fs1 f fs2 vs1 v vs2 o l id' td' fs1' fs2' vs1' vs2' o' l' Hst Hst' Hf Hf' Ha Hns Hl Hl' Hself H H'.
  destruct (attr_among _ _ _ _ _ _ _ _ _ _ _ _ Hst Hf Hl Ha H) as (p & Hp & Hs).
  destruct (attr_among _ _ _ _ _ _ _ _ _ _ _ _ Hst' Hf' Hl' Ha H') as (p' & Hp' & Hs').
  assert (p = p') by (eapply attr_function; eassumption). subst p'. exists p. split; assumption.
Qed.

(** ** Left-out fields in any state (C23) *)
Theorem suppressed_among : forall x E id td fs1 f fs2 vs1 v vs2 w u,
  struct_type E id td (fs1 ++ f :: fs2) -> List.length vs1 = List.length fs1 ->
  ya_attribute (f_attrs f) = false -> ya_text (f_attrs f) = false ->
  suppressed x (VRec (vs1 ++ v :: vs2)) f v ->
  ser x E id (VRec (vs1 ++ v :: vs2)) (fun _ => false) w = (SOk tt, u) ->
  Among x E td (VRec (vs1 ++ v :: vs2)) fs1 vs1 [] fs2 vs2 w u.
Proof.
  intros x E id td fs1 f fs2 vs1 v vs2 w u Hst Hlen Hpa Hpt Hsu H.
  destruct (field_among _ _ _ _ _ _ _ _ _ _ _ _ Hst Hlen H) as (p & Hp & Hs).
  inversion Hp; subst; try congruence; try contradiction.
Qed.
