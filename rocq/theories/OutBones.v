(** * Values equal up to string contents are written with the same elements
    and attributes. *)
From Verif Require Import Str Num Xml XmlText Reader Schema De Ser SpecTree SpecText SpecNum SpecTyped SpecStruct SpecSer SpecValue SpecEnc
  TextProofs EncProofs SerProofs SpecRound RoundNames RoundTexts RoundFields SpecOut OutProofs OutTexts.
Open Scope list_scope.

(** Written trees without texts and attribute values. *)
Definition hollow (a : attr) : attr := Attr (at_name a) "".
Fixpoint wbones (w : wnode) : list wnode :=
  match w with
  | WElem n a m ks => [WElem n (map hollow a) m (flat_map wbones ks)]
  | _ => []
  end.

(** ** Reading *)
Lemma bones_text : forall buf, flat_map bones (text_node buf) = [].
Proof. intros buf. unfold text_node. destruct (str_nonws buf); reflexivity. Qed.

Lemma hollow_rattr : forall st a, hollow (rattr st (hollow a)) = hollow (rattr st a).
Proof. intros st a. unfold hollow, rattr. cbn [at_name at_value]. destruct (n_prefix (at_name a)); reflexivity. Qed.

Lemma bones_wbones : forall w st, is_elem w ->
  bones (reread st w) = flat_map (fun w' => bones (reread st w')) (wbones w).
Proof.
  fix IH 1. intros [n a m ks|s|s] st Hw; [|destruct Hw|destruct Hw].
  cbn [wbones flat_map]. rewrite app_nil_r. rewrite !reread_elem. cbn [bones]. f_equal. f_equal.
  - rewrite !map_map. apply map_ext. intros b. symmetry. apply hollow_rattr.
  - clear Hw. generalize (declare st m :: st) as st'. intros st'.
    assert (Hb : forall l buf, (forall k, In k l -> is_elem k) ->
      flat_map bones (reread_kids st' l buf) = flat_map (fun w' => bones (reread st' w')) l).
    { induction l as [|k l IHl]; intros buf Hk; cbn [reread_kids flat_map]; [apply bones_text|].
      destruct k; [|destruct (Hk _ (or_introl eq_refl))..]. rewrite flat_map_app, bones_text. cbn [app flat_map]. f_equal.
      apply IHl. intros k Hin. apply Hk. right. exact Hin. }
    rewrite (Hb (flat_map wbones ks) "").
    2:{ intros k Hin. apply in_flat_map in Hin. destruct Hin as (w & _ & Hin). destruct w; [destruct Hin as [<-|[]]; exact I|destruct Hin..]. }
    clear Hb. generalize "". induction ks as [|k ks IHk]; intros buf; cbn [reread_kids flat_map]; [apply bones_text|].
    pose proof (IH k st') as Hk. destruct k as [n' a' m' ks'|s|s]; [|cbn [wbones app]; apply IHk..].
    rewrite flat_map_app, bones_text. cbn [app flat_map]. rewrite flat_map_app. f_equal; [|apply IHk]. apply Hk. exact I.
Qed.

(** ** Writing *)
Notation obones o := (SpecEnc.omap (flat_map wbones) o).

Lemma obones_app : forall a b c d, obones a = obones c -> obones b = obones d -> obones (oapp a b) = obones (oapp c d).
Proof.
  intros [a|] [b|] [c|] [d|] H1 H2; cbn in *; try discriminate; try reflexivity. rewrite !flat_map_app. congruence.
Qed.
Lemma obones_concat : forall A (f g : A -> option (list wnode)) l m, Forall2 (fun a b => obones (f a) = obones (g b)) l m ->
  obones (oconcat f l) = obones (oconcat g m).
Proof. intros A f g l m H. induction H; cbn [oconcat]; [reflexivity|]. apply obones_app; assumption. Qed.

Lemma alike_refl_all : forall l, Forall2 alike l l.
Proof. induction l; constructor; [apply al_same|assumption]. Qed.

Definition same_some {A} (a b : option A) : Prop := (a = None <-> b = None).
Lemma ss_refl : forall A (a : option A), same_some a a.
Proof. intros A a. split; auto. Qed.

Lemma show_simple_alike : forall x s v w, alike v w -> same_some (show_simple x s v) (show_simple x s w).
Proof. intros x s v w H. destruct H; try apply ss_refl; destruct s; split; try discriminate; reflexivity. Qed.
Lemma show_prim_alike : forall x n k v w, alike v w -> same_some (show_prim x n k v) (show_prim x n k w).
Proof.
  intros x n [s|i m|] v w H; cbn [show_prim]; [apply show_simple_alike; exact H|..]; destruct H; try apply ss_refl; split; reflexivity.
Qed.
Lemma ss_omap : forall A (a b : option A) (f g : A -> list wnode), same_some a b -> (forall x y, flat_map wbones (f x) = flat_map wbones (g y)) ->
  obones (SpecEnc.omap f a) = obones (SpecEnc.omap g b).
Proof.
  intros A [a|] [b|] f g [H1 H2] H; cbn; try reflexivity; [rewrite (H a b); reflexivity| |].
  - specialize (H2 eq_refl). discriminate.
  - specialize (H1 eq_refl). discriminate.
Qed.

(** Alike values under the constructors. *)
Lemma alike_opt_inv : forall a w, alike (VOpt a) w ->
  (a = None /\ w = VOpt None) \/ exists u u', a = Some u /\ w = VOpt (Some u') /\ alike u u'.
Proof.
  intros a w H. inversion H; subst; [|right; eauto].
  destruct a as [u|]; [right; exists u, u; split; [reflexivity|]; split; [reflexivity|apply al_same]|left; auto].
Qed.
Lemma alike_vec_inv : forall l w, alike (VVec l) w -> exists m, w = VVec m /\ Forall2 alike l m.
Proof. intros l w H. inversion H; subst; [exists l; split; [reflexivity|apply alike_refl_all]|eauto]. Qed.
Lemma alike_rec_inv : forall l w, alike (VRec l) w -> exists m, w = VRec m /\ Forall2 alike l m.
Proof. intros l w H. inversion H; subst; [exists l; split; [reflexivity|apply alike_refl_all]|eauto]. Qed.
Lemma alike_var_inv : forall i l w, alike (VVar i l) w -> exists m, w = VVar i m /\ Forall2 alike l m.
Proof. intros i l w H. inversion H; subst; [exists l; split; [reflexivity|apply alike_refl_all]|eauto]. Qed.
Lemma alike_str_inv : forall s w, alike (VStr s) w -> exists t, w = VStr t.
Proof. intros s w H. inversion H; subst; eauto. Qed.

Lemma Forall2_impl : forall A B (R S : A -> B -> Prop), (forall a b, R a b -> S a b) -> forall l m, Forall2 R l m -> Forall2 S l m.
Proof. intros A B R S H l m F. induction F; constructor; auto. Qed.
Lemma Forall2_in_l : forall A B (R : A -> B -> Prop) l m, Forall2 R l m -> forall (P : A -> Prop), (forall a, In a l -> P a) -> Forall2 (fun a b => R a b /\ P a) l m.
Proof.
  intros A B R l m H P. induction H; intros Hp; constructor.
  - split; [exact H|]. apply Hp. left. reflexivity.
  - apply IHForall2. intros a Ha. apply Hp. right. exact Ha.
Qed.

Section Bones.
  Variable x : ext.
  Variable E : env.
  Hypothesis Hp : plain_strings E.
  Notation enc := (encode x E).
  Notation enca := (encode_attrs x E).

  Definition same_bones (v : value) : Prop := forall w id h, alike v w -> obones (enc id v h) = obones (enc id w h).
  Notation hollow2 t := (SpecEnc.omap (fun '(a, ns) => (map hollow a, ns : nsmap)) t).
  Definition same_tag (v : value) : Prop := forall w id, alike v w -> hollow2 (enca id v) = hollow2 (enca id w).

  Variable N : nat.
  Hypothesis IH : forall v, height v < N -> same_bones v.
  Hypothesis IHa : forall v, height v < N -> same_tag v.

  Lemma left_out_fixed : forall self self' v v' f b, ya_default (f_attrs f) = None -> ya_skip_if (f_attrs f) = None ->
    left_out x self v f b = left_out x self' v' f b.
  Proof. intros self self' v v' f b H1 H2. unfold left_out. rewrite H1, H2. reflexivity. Qed.

  Lemma simple_bones : forall q s v w, alike v w -> obones (enc_simple x q s v) = obones (enc_simple x q s w).
  Proof. intros q s v w H. apply ss_omap; [apply show_simple_alike; exact H|reflexivity]. Qed.

  Lemma field_bones : forall ra self self' f v w,
    ya_cdata (f_attrs f) = false -> ya_default (f_attrs f) = None -> ya_skip_if (f_attrs f) = None -> height v < N -> alike v w ->
    obones (enc_field x enc ra self f v) = obones (enc_field x enc ra self' f w).
  Proof.
    intros ra self self' f v w Hc Hd Hs Hh Ha. unfold enc_field. destruct (ya_attribute (f_attrs f)); [reflexivity|].
    destruct (ya_text (f_attrs f)).
    { destruct (f_ty f) as [[[| | |]|]|[[| | |]|]|b|b]; try (destruct Ha; reflexivity).
      destruct v as [| | | | |o| | |]; try (inversion Ha; subst; reflexivity).
      apply alike_opt_inv in Ha. destruct Ha as [[-> ->]|(u & u' & -> & -> & Ha)]; [reflexivity|]. destruct Ha; reflexivity. }
    rewrite (left_out_fixed self self' v w f true Hd Hs). destruct (left_out x self' w f true); [reflexivity|]. rewrite Hc.
    destruct (f_ty f) as [[s|id]|[s|id]|[s|id]|[s|id]].
    - apply simple_bones. exact Ha.
    - apply IH; assumption.
    - destruct v as [| | | | |o| | |]; try (inversion Ha; subst; reflexivity).
      apply alike_opt_inv in Ha. destruct Ha as [[-> ->]|(u & u' & -> & -> & Ha)]; [reflexivity|]. apply simple_bones. exact Ha.
    - destruct v as [| | | | |o| | |]; try (inversion Ha; subst; reflexivity).
      apply alike_opt_inv in Ha. destruct Ha as [[-> ->]|(u & u' & -> & -> & Ha)]; [reflexivity|]. apply IH; [|exact Ha]. cbn [height] in Hh. lia.
    - destruct v as [| | | | | |l| |]; try (inversion Ha; subst; reflexivity).
      apply alike_vec_inv in Ha. destruct Ha as (m & -> & Ha). apply obones_concat. eapply Forall2_impl; [|exact Ha].
      intros a b Hab. apply simple_bones. exact Hab.
    - destruct v as [| | | | | |l| |]; try (inversion Ha; subst; reflexivity).
      apply alike_vec_inv in Ha. destruct Ha as (m & -> & Ha). apply obones_concat.
      assert (Hb : Forall2 (fun a b => alike a b /\ height a < N) l m).
      { apply Forall2_in_l; [exact Ha|]. intros a Hin. pose proof (height_in a l Hin). cbn [height] in Hh. lia. }
      eapply Forall2_impl; [|exact Hb]. intros a b [H1 H2]. apply IH; assumption.
    - destruct v as [| | | | |o| | |]; try (inversion Ha; subst; reflexivity).
      apply alike_opt_inv in Ha. destruct Ha as [[-> ->]|(u & u' & -> & -> & Ha)]; [reflexivity|].
      destruct u as [| | | | | |l| |]; try (inversion Ha; subst; reflexivity).
      apply alike_vec_inv in Ha. destruct Ha as (m & -> & Ha). apply obones_concat. eapply Forall2_impl; [|exact Ha].
      intros a b Hab. apply simple_bones. exact Hab.
    - destruct v as [| | | | |o| | |]; try (inversion Ha; subst; reflexivity).
  Qed.

  Lemma fields_bones : forall ra self self' fs vs ws,
    (forall f, In f fs -> ya_cdata (f_attrs f) = false /\ ya_default (f_attrs f) = None /\ ya_skip_if (f_attrs f) = None) ->
    Forall2 (fun a b => alike a b /\ height a < N) vs ws ->
    obones (enc_fields x enc ra self fs vs) = obones (enc_fields x enc ra self' fs ws).
  Proof.
    intros ra self self'. induction fs as [|f fs IHf]; intros vs ws Hf Hv; destruct Hv as [|v w vs ws [H1 H2] Hv]; try reflexivity.
    cbn [enc_fields]. destruct (Hf f (or_introl eq_refl)) as (G1 & G2 & G3).
    apply obones_app; [apply field_bones; assumption|]. apply IHf; [|exact Hv]. intros g Hg. apply Hf. right. exact Hg.
  Qed.

  Lemma item_bones : forall b v w h, height v < N -> alike v w -> obones (enc_item x enc b v h) = obones (enc_item x enc b w h).
  Proof.
    intros [s|id] v w h Hh Ha; cbn [enc_item]; [|apply IH; assumption].
    destruct s; [reflexivity|..]; apply ss_omap; try (apply show_simple_alike; exact Ha); reflexivity.
  Qed.
  Lemma items_bones : forall (f g : value -> option (list wnode)) l m, Forall2 alike l m -> (forall a, In a l -> height a < N) ->
    (forall a b, height a < N -> alike a b -> obones (f a) = obones (g b)) -> obones (oconcat f l) = obones (oconcat g m).
  Proof.
    intros f g l m Ha Hh Hf. apply obones_concat. eapply Forall2_impl; [|exact (Forall2_in_l _ _ _ _ _ Ha _ Hh)].
    intros a b [H1 H2]. apply Hf; assumption.
  Qed.
  Lemma vec_below : forall l, height (VVec l) < N -> forall a, In a l -> height a < N.
  Proof. intros l H a Ha. pose proof (height_in a l Ha). cbn [height] in H. lia. Qed.

  Lemma named_bones : forall ra fs vs ws, Forall2 (fun a b => alike a b /\ height a < N) vs ws ->
    obones (enc_named_fields x enc ra fs vs) = obones (enc_named_fields x enc ra fs ws).
  Proof.
    intros ra. induction fs as [|f fs IHf]; intros vs ws Hv; destruct Hv as [|v w vs ws [H1 H2] Hv]; try reflexivity.
    cbn [enc_named_fields]. apply obones_app; [|apply IHf; exact Hv].
    unfold enc_named_field. destruct (f_ty f) as [[s|id]|b|b|b].
    - apply simple_bones. exact H1.
    - apply IH; assumption.
    - destruct v as [| | | | |o| | |]; try (inversion H1; subst; reflexivity).
    - destruct v as [| | | | | |l| |]; try (inversion H1; subst; reflexivity).
      apply alike_vec_inv in H1. destruct H1 as (m & -> & Ha). apply items_bones; [exact Ha|apply vec_below; exact H2|].
      intros a c Hb Hac. apply item_bones; assumption.
    - destruct v as [| | | | |o| | |]; try (inversion H1; subst; reflexivity).
  Qed.

  Lemma payload_item_bones : forall q b v w, height v < N -> alike v w ->
    obones (enc_payload_item x enc q b v) = obones (enc_payload_item x enc q b w).
  Proof.
    intros q b v w Hh Ha. unfold enc_payload_item.
    assert (H : obones (match b, v with BSimple SString, VStr t => Some [WTxt t] | _, _ => enc_item x enc b v Inside end) =
                obones (match b, w with BSimple SString, VStr t => Some [WTxt t] | _, _ => enc_item x enc b w Inside end)).
    { pose proof (item_bones b v w Inside Hh Ha) as Hi. destruct b as [[| | |]|id]; try exact Hi. destruct Ha; try exact Hi; reflexivity. }
    destruct (match b, v with BSimple SString, VStr t => Some [WTxt t] | _, _ => enc_item x enc b v Inside end) as [k|];
    destruct (match b, w with BSimple SString, VStr t => Some [WTxt t] | _, _ => enc_item x enc b w Inside end) as [k'|];
      cbn in *; try discriminate; try reflexivity. injection H as H. rewrite H. reflexivity.
  Qed.

  Lemma content_bones : forall h id td v w, nth_error E id = Some td -> height v <= N -> alike v w ->
    obones (enc_content x enc h td v) = obones (enc_content x enc h td w).
  Proof.
    intros h id td v w Htd Hh Ha. pose proof (Hp id td Htd) as Ht. unfold enc_content.
    destruct (t_body td) as [fs|vs d|k]; [| |reflexivity].
    - destruct v as [| | | | | | |ws|]; try (inversion Ha; subst; reflexivity). apply alike_rec_inv in Ha. destruct Ha as (m & -> & Ha).
      apply fields_bones.
      + intros f Hf. destruct (Ht f Hf) as (G1 & G2 & G3 & _). auto.
      + apply Forall2_in_l; [exact Ha|]. intros a Hin. pose proof (height_in a ws Hin). cbn [height] in Hh. lia.
    - destruct v as [| | | | | | | |i ws]; try (inversion Ha; subst; reflexivity). apply alike_var_inv in Ha. destruct Ha as (m & -> & Ha).
      destruct (nth_error vs i) as [vr|]; [|reflexivity].
      assert (Hb : Forall2 (fun a b => alike a b /\ height a < N) ws m).
      { apply Forall2_in_l; [exact Ha|]. intros a Hin. pose proof (height_in a ws Hin). cbn [height] in Hh. lia. }
      clear Ha. unfold enc_variant. destruct (v_body vr) as [|fl t|fs].
      + destruct Hb; reflexivity.
      + destruct Hb as [|a b ws m [H1 H2] Hb]; [reflexivity|]. destruct Hb; [|reflexivity].
        unfold enc_payload. destruct t as [[s|id']|c|c|c].
        * apply simple_bones. exact H1.
        * destruct (ya_flatten (v_attrs vr) || fl)%bool; [apply IH; assumption|apply payload_item_bones; assumption].
        * destruct a as [| | | | |o| | |]; try (inversion H1; subst; reflexivity).
          apply alike_opt_inv in H1. destruct H1 as [[-> ->]|(u & u' & -> & -> & Ha)]; [reflexivity|].
          apply payload_item_bones; [|exact Ha]. cbn [height] in H2. lia.
        * destruct a as [| | | | | |l| |]; try (inversion H1; subst; reflexivity).
          apply alike_vec_inv in H1. destruct H1 as (m' & -> & Ha). apply items_bones; [exact Ha|apply vec_below; exact H2|].
          intros a b' Hb' Hab. apply payload_item_bones; assumption.
        * destruct a as [| | | | |o| | |]; try (inversion H1; subst; reflexivity).
      + apply named_bones. exact Hb.
  Qed.

  Lemma attr_show_alike : forall b v w, attribute_type E b -> height v < N -> alike v w -> same_some (attr_show x enc b v) (attr_show x enc b w).
  Proof.
    intros [s|id] v w _ Hh Ha; cbn [attr_show]; [apply show_simple_alike; exact Ha|].
    pose proof (IH v Hh w id Inside Ha) as H. destruct (enc id v Inside), (enc id w Inside); cbn in *; try discriminate; split; try discriminate; reflexivity.
  Qed.

  Notation hollow3 t := (SpecEnc.omap (fun '(own, child, ns) => (map hollow own, map hollow child, ns : nsmap)) t).
  Lemma tag_bones : forall ra self self' fs vs ws,
    (forall f, In f fs -> ya_default (f_attrs f) = None /\ ya_skip_if (f_attrs f) = None /\
      (ya_attribute (f_attrs f) = true -> attribute_type E (base_of (f_ty f)))) ->
    Forall2 (fun a b => alike a b /\ height a < N) vs ws ->
    hollow3 (enc_tag x enc enca ra self fs vs) = hollow3 (enc_tag x enc enca ra self' fs ws).
  Proof.
    intros ra self self'. induction fs as [|f fs IHf]; intros vs ws Hf Hv; destruct Hv as [|v w vs ws [H1 H2] Hv]; try reflexivity.
    cbn [enc_tag]. destruct (Hf f (or_introl eq_refl)) as (Gd & Gs & Ga).
    assert (G : hollow3 (enc_tag x enc enca ra self fs vs) = hollow3 (enc_tag x enc enca ra self' fs ws)).
    { apply IHf; [|exact Hv]. intros g Hg. apply Hf. right. exact Hg. }
    destruct (enc_tag x enc enca ra self fs vs) as [[[o1 c1] n1]|]; destruct (enc_tag x enc enca ra self' fs ws) as [[[o2 c2] n2]|];
      cbn in G; try discriminate; [|reflexivity]. injection G as G1 G2 ->.
    destruct (ya_attribute (f_attrs f)).
    - specialize (Ga eq_refl). unfold enc_attr.
      assert (Hone : forall b u u', base_of (f_ty f) = b -> height u < N -> alike u u' ->
        hollow3 (SpecEnc.omap (fun l => (l ++ o1, c1, n2)) (SpecEnc.omap (fun t => if left_out x self v f false then [] else [Attr (qname (field_qname ra f)) t]) (attr_show x enc b u))) =
        hollow3 (SpecEnc.omap (fun l => (l ++ o2, c2, n2)) (SpecEnc.omap (fun t => if left_out x self' w f false then [] else [Attr (qname (field_qname ra f)) t]) (attr_show x enc b u')))).
      { intros b u u' <- Hu Huu. rewrite (left_out_fixed self self' v w f false Gd Gs).
        pose proof (attr_show_alike _ u u' Ga Hu Huu) as [S1 S2].
        destruct (attr_show x enc (base_of (f_ty f)) u), (attr_show x enc (base_of (f_ty f)) u'); cbn;
          [|specialize (S2 eq_refl); discriminate|specialize (S1 eq_refl); discriminate|reflexivity].
        destruct (left_out x self' w f false); cbn; rewrite G1, G2; reflexivity. }
      destruct (f_ty f) as [b|b|b|b].
      + apply Hone; [reflexivity|assumption|assumption].
      + destruct v as [| | | | |o| | |]; try (inversion H1; subst; reflexivity).
        pose proof H1 as Ha. apply alike_opt_inv in Ha. destruct Ha as [[-> ->]|(u & u' & -> & -> & Ha)].
        * cbn. rewrite G1, G2. reflexivity.
        * apply Hone; [reflexivity| |exact Ha]. cbn [height] in H2. lia.
      + destruct v as [| | | | | |l| |]; try (inversion H1; subst; reflexivity).
        apply alike_vec_inv in H1. destruct H1 as (m & -> & _). cbn. rewrite G1, G2. reflexivity.
      + destruct v as [| | | | |o| | |]; try (inversion H1; subst; reflexivity).
    - destruct (ya_flatten (f_attrs f)); [|cbn; rewrite G1, G2; reflexivity].
      destruct (f_ty f) as [[s|id]|b|b|b]; try (cbn; rewrite G1, G2; reflexivity).
      pose proof (IHa v H2 w id H1) as Ht.
      destruct (enca id v) as [[a1 m1]|]; destruct (enca id w) as [[a2 m2]|]; cbn in Ht; try discriminate; [|reflexivity].
      injection Ht as Ht ->. cbn. rewrite !map_app, G1, G2, Ht. reflexivity.
  Qed.
  Lemma start_bones : forall id td v w, nth_error E id = Some td -> height v <= N -> alike v w ->
    hollow3 (enc_start x enc enca td v) = hollow3 (enc_start x enc enca td w).
  Proof.
    intros id td v w Htd Hh Ha. pose proof (Hp id td Htd) as Hpt. unfold enc_start. destruct (t_body td) as [fs|vs d|k]; [| |reflexivity].
    - destruct v as [| | | | | | |us|]; try (inversion Ha; subst; reflexivity).
      apply alike_rec_inv in Ha. destruct Ha as (m & -> & Ha). apply tag_bones.
      + intros f Hin. destruct (Hpt f Hin) as (_ & G1 & G2 & G3). auto.
      + apply Forall2_in_l; [exact Ha|]. intros a Hin. pose proof (height_in a us Hin). cbn [height] in Hh. lia.
    - destruct v as [| | | | | | | |i us]; try (inversion Ha; subst; reflexivity).
  Qed.

  Lemma step : forall v, height v <= N -> same_bones v.
  Proof.
    intros v Hh w id h Ha. rewrite !encode_eq. unfold enc_type.
    destruct (nth_error E id) as [td|] eqn:Htd; [|reflexivity].
    destruct (t_body td) as [fs|vs d|k] eqn:Hb.
    3:{ destruct h as [|o]; (apply ss_omap; [apply show_prim_alike; exact Ha|reflexivity]). }
    all: destruct h as [|o]; [eapply content_bones; eauto|].
    all: destruct (ya_flatten (t_attrs td)); [eapply content_bones; eauto|].
    all: pose proof (content_bones (Under o) id td v w Htd Hh Ha) as Hc.
    all: pose proof (start_bones id td v w Htd Hh Ha) as Hs.
    all: destruct (enc_start x enc enca td v) as [[[o1 c1] n1]|]; destruct (enc_start x enc enca td w) as [[[o2 c2] n2]|];
      cbn in Hs; try discriminate; [|reflexivity]; injection Hs as S1 S2 ->;
      destruct (enc_content x enc (Under o) td v) as [k1|]; destruct (enc_content x enc (Under o) td w) as [k2|]; cbn in Hc; try discriminate; [|reflexivity];
      injection Hc as Hc; cbn; rewrite !map_app, S1, S2, Hc; reflexivity.
  Qed.
  Lemma tag_step : forall v, height v <= N -> same_tag v.
  Proof.
    intros v Hh w id Ha. rewrite !encode_attrs_eq. unfold enc_type_attrs.
    destruct (nth_error E id) as [td|] eqn:Htd; [|reflexivity]. pose proof (start_bones id td v w Htd Hh Ha) as Hs.
    destruct (t_body td) as [fs|vs d|k]; [..|reflexivity].
    all: destruct (enc_start x enc enca td v) as [[[o1 c1] n1]|]; destruct (enc_start x enc enca td w) as [[[o2 c2] n2]|];
      cbn in Hs; try discriminate; [|reflexivity]; injection Hs as S1 S2 ->; cbn; rewrite !map_app, S1, S2; reflexivity.
  Qed.
End Bones.

Theorem encode_bones : forall x E, plain_strings E -> forall v, same_bones x E v.
Proof.
  intros x E H1.
  assert (H : forall n v, height v <= n -> same_bones x E v /\ same_tag x E v).
  { induction n as [|n IH]; intros v Hv.
    - split; [apply (step x E H1 0)|apply (tag_step x E H1 0)]; try exact Hv; intros; lia.
    - split; [apply (step x E H1 (S n))|apply (tag_step x E H1 (S n))]; try exact Hv; intros w Hw; apply IH; lia. }
  intros v. apply (H (height v)). lia.
Qed.

(** ** Documents *)
Theorem ser_bones : forall x E c id v v' l, plain_strings E -> writable_types E -> own_element E id -> shows_legal x ->
  match ec_indent c with Some ind => all_chars is_ws ind = true | None => True end ->
  (forall s, InValue s v -> legal s = true) -> (forall s, InValue s v' -> legal s = true) -> alike v v' ->
  ser_events x E id v = SOk l ->
  exists l' t t', ser_events x E id v' = SOk l' /\
    parse_text (emit_text c l) = Stream (EStartDoc :: flat t) FEnd /\
    parse_text (emit_text c l') = Stream (EStartDoc :: flat t') FEnd /\ bones t = bones t'.
Proof.
  intros x E c id v v' l Hp Hw Ho Hx Hc Hs Hs' Ha Hl.
  pose proof (ser_events_encode x E id v) as He. pose proof (ser_events_encode x E id v') as He'.
  pose proof (encode_bones x E Hp v v' id (Under None) Ha) as Hb.
  destruct (encode x E id v (Under None)) as [ts|] eqn:Hts; [|exfalso; apply (He l); exact Hl].
  destruct (encode x E id v' (Under None)) as [ts'|] eqn:Hts'; [|discriminate Hb].
  assert (l = flat_map wtree ts) by congruence. subst l. exists (flat_map wtree ts').
  destruct (flat_writable x E id v _ Hw Ho He (ser_legal x E id v _ Hx Hp Hs He)) as (w & Hw1 & Hw2 & Hw3 & Hw4).
  destruct (flat_writable x E id v' _ Hw Ho He' (ser_legal x E id v' _ Hx Hp Hs' He')) as (w' & Hw1' & Hw2' & Hw3' & Hw4').
  exists (reread [] w), (reread [] w'). split; [exact He'|]. rewrite Hw1, Hw1'.
  split; [apply text_round_trip; assumption|]. split; [apply text_round_trip; assumption|].
  rewrite (bones_wbones w [] Hw2), (bones_wbones w' [] Hw2'). f_equal.
  rewrite Hts in Hw4. rewrite Hts' in Hw4'. injection Hw4 as ->. injection Hw4' as ->.
  cbn in Hb. rewrite !app_nil_r in Hb. injection Hb as Hb. exact Hb.
Qed.
