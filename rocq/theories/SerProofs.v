(** * Consequences of [ser_agrees] (EncProofs.v) for C21-C25. *)
From Verif Require Import Str Num Xml XmlText Reader Schema Ser SpecTree SpecText SpecNum SpecTyped SpecStruct TextProofs SpecEnc SpecSer EncProofs EqualProofs.
Open Scope list_scope.

Lemma oapp_some : forall A (a b : option (list A)) l, oapp a b = Some l ->
  exists u w, a = Some u /\ b = Some w /\ l = u ++ w.
Proof. intros A [u|] [w|] l H; try discriminate. injection H as <-. eauto. Qed.
Lemma omap_some : forall A B (f : A -> B) o b, omap f o = Some b -> exists a, o = Some a /\ b = f a.
Proof. intros A B f [a|] b H; [injection H as <-; eauto|discriminate]. Qed.
Lemma omap_none : forall A B (f : A -> B) o, omap f o <> None <-> o <> None.
Proof. intros A B f [a|]; cbn; split; intros; congruence. Qed.
Lemma oapp_none : forall A (a b : option (list A)), a <> None -> b <> None -> oapp a b <> None.
Proof. intros A [u|] [w|] H1 H2; cbn; congruence. Qed.
Lemma oconcat_none : forall A B (f : A -> option (list B)) l, (forall a, In a l -> f a <> None) -> oconcat f l <> None.
Proof.
  induction l as [|a l IH]; intros H; [discriminate|]. cbn [oconcat]. apply oapp_none; [apply H; left; reflexivity|].
  apply IH. intros; apply H; right; assumption.
Qed.

Lemma height_in : forall a l, In a l -> height a <= list_max (map height l).
Proof.
  intros a l H. pose proof (proj1 (list_max_le (map height l) _) (le_n _)) as Hf.
  rewrite Forall_forall in Hf. apply Hf. apply in_map. exact H.
Qed.

(** ** The bound on the nesting depth does not matter *)
Section Ext.
  Variable x : ext.
  Variable E : env.
  Variable enc enc' : nat -> value -> how -> option (list wnode).
  Variable ea ea' : nat -> value -> option (list attr * nsmap).
  Variable k : nat.
  Hypothesis He : forall id w h, height w < k -> enc id w h = enc' id w h.
  Hypothesis Ha : forall id w, height w < k -> ea id w = ea' id w.

  Lemma attr_show_ext : forall b v, height v < k -> attr_show x enc b v = attr_show x enc' b v.
  Proof. intros [s|id] v H; cbn; [reflexivity|]. rewrite He by assumption. reflexivity. Qed.
  Lemma enc_attr_ext : forall ra self f v, height v < k -> enc_attr x enc ra self f v = enc_attr x enc' ra self f v.
  Proof.
    intros ra self f v H. unfold enc_attr. destruct (f_ty f) as [b|b|b|b]; try reflexivity.
    - rewrite attr_show_ext by assumption. reflexivity.
    - destruct v as [| | | | |[w|]| | |]; try reflexivity. rewrite attr_show_ext; [reflexivity|]. cbn in H. lia.
  Qed.
  Lemma enc_tag_ext : forall ra self fs vs, (forall v, In v vs -> height v < k) ->
    enc_tag x enc ea ra self fs vs = enc_tag x enc' ea' ra self fs vs.
  Proof.
    intros ra self. induction fs as [|f fs IH]; intros [|v vs] H; try reflexivity. cbn [enc_tag].
    rewrite IH by (intros; apply H; right; assumption).
    destruct (enc_tag x enc' ea' ra self fs vs) as [[[own child] ns]|]; [|reflexivity].
    rewrite enc_attr_ext by (apply H; left; reflexivity).
    destruct (ya_attribute (f_attrs f)); [reflexivity|]. destruct (ya_flatten (f_attrs f)); [|reflexivity].
    destruct (f_ty f) as [[s|id]|b|b|b]; try reflexivity. rewrite Ha by (apply H; left; reflexivity). reflexivity.
  Qed.

  Lemma oconcat_ext : forall A B (f g : A -> option (list B)) l, (forall a, In a l -> f a = g a) -> oconcat f l = oconcat g l.
  Proof.
    induction l as [|a l IH]; intros H; [reflexivity|]. cbn [oconcat]. rewrite (H a) by (left; reflexivity).
    rewrite IH by (intros; apply H; right; assumption). reflexivity.
  Qed.

  Lemma vec_below : forall l, height (VVec l) < k -> forall w, In w l -> height w < k.
  Proof. intros l H w Hw. cbn in H. apply height_in in Hw. lia. Qed.

  Lemma enc_field_ext : forall ra self f v, height v < k -> enc_field x enc ra self f v = enc_field x enc' ra self f v.
  Proof.
    intros ra self f v H. unfold enc_field.
    destruct (ya_attribute (f_attrs f)); [reflexivity|]. destruct (ya_text (f_attrs f)); [reflexivity|].
    destruct (left_out x self v f true); [reflexivity|]. destruct (ya_cdata (f_attrs f)); [reflexivity|].
    destruct (f_ty f) as [[s|id]|[s|id]|[s|id]|[s|id]]; try reflexivity.
    - apply He; assumption.
    - destruct v as [| | | | |[w|]| | |]; try reflexivity. apply He. cbn in H. lia.
    - destruct v; try reflexivity. apply oconcat_ext. intros w Hw. apply He. eapply vec_below; eassumption.
  Qed.
  Lemma enc_fields_ext : forall ra self fs vs, (forall v, In v vs -> height v < k) ->
    enc_fields x enc ra self fs vs = enc_fields x enc' ra self fs vs.
  Proof.
    intros ra self. induction fs as [|f fs IH]; intros [|v vs] H; try reflexivity. cbn [enc_fields].
    rewrite IH by (intros; apply H; right; assumption). rewrite enc_field_ext by (apply H; left; reflexivity). reflexivity.
  Qed.
  Lemma enc_item_ext : forall b v h, height v < k -> enc_item x enc b v h = enc_item x enc' b v h.
  Proof. intros [s|id] v h H; cbn; [reflexivity|]. apply He; assumption. Qed.
  Lemma enc_named_fields_ext : forall ra fs vs, (forall v, In v vs -> height v < k) ->
    enc_named_fields x enc ra fs vs = enc_named_fields x enc' ra fs vs.
  Proof.
    intros ra. induction fs as [|f fs IH]; intros [|v vs] H; try reflexivity. cbn [enc_named_fields].
    rewrite IH by (intros; apply H; right; assumption). f_equal. specialize (H v (or_introl eq_refl)).
    unfold enc_named_field. destruct (f_ty f) as [[s|id]|b|b|b]; try reflexivity.
    - apply He; assumption.
    - destruct v; try reflexivity. apply oconcat_ext. intros w Hw. apply enc_item_ext. eapply vec_below; eassumption.
  Qed.
  Lemma enc_payload_item_ext : forall q b v, height v < k -> enc_payload_item x enc q b v = enc_payload_item x enc' q b v.
  Proof. intros q b v H. unfold enc_payload_item. rewrite enc_item_ext by assumption. reflexivity. Qed.
  Lemma enc_payload_ext : forall h q fl t v, height v < k -> enc_payload x enc h q fl t v = enc_payload x enc' h q fl t v.
  Proof.
    intros h q fl t v H. unfold enc_payload. destruct t as [[s|id]|b|b|b]; try reflexivity.
    - rewrite He, enc_payload_item_ext by assumption. reflexivity.
    - destruct v as [| | | | |[w|]| | |]; try reflexivity. apply enc_payload_item_ext. cbn in H; lia.
    - destruct v; try reflexivity. apply oconcat_ext. intros w Hw. apply enc_payload_item_ext. eapply vec_below; eassumption.
  Qed.
  Lemma enc_content_ext : forall h td v, height v <= k -> enc_content x enc h td v = enc_content x enc' h td v.
  Proof.
    intros h td v H. unfold enc_content. destruct (t_body td); try reflexivity.
    - destruct v as [| | | | | | |vs|]; try reflexivity. apply enc_fields_ext. intros w Hw. cbn in H. apply height_in in Hw. lia.
    - destruct v as [| | | | | | | |i l]; try reflexivity. destruct (nth_error vs i) as [vr|]; [|reflexivity].
      assert (Hl : forall w, In w l -> height w < k). { intros w Hw. cbn in H. apply height_in in Hw. lia. }
      unfold enc_variant. destruct (v_body vr) as [|fl t|fs]; try reflexivity.
      + destruct l as [|w [|]]; try reflexivity. apply enc_payload_ext. apply Hl. left; reflexivity.
      + apply enc_named_fields_ext. exact Hl.
  Qed.
  Lemma enc_start_ext : forall td v, height v <= k -> enc_start x enc ea td v = enc_start x enc' ea' td v.
  Proof.
    intros td v H. unfold enc_start. destruct (t_body td); try reflexivity.
    destruct v as [| | | | | | |vs|]; try reflexivity. apply enc_tag_ext. intros w Hw. cbn in H. apply height_in in Hw. lia.
  Qed.
  Lemma enc_type_ext : forall id v h, height v <= k -> enc_type x E enc ea id v h = enc_type x E enc' ea' id v h.
  Proof.
    intros id v h H. unfold enc_type. destruct (nth_error E id) as [td|]; [|reflexivity].
    rewrite (enc_content_ext h), enc_start_ext by assumption. reflexivity.
  Qed.
  Lemma enc_type_attrs_ext : forall id v, height v <= k -> enc_type_attrs x E enc ea id v = enc_type_attrs x E enc' ea' id v.
  Proof.
    intros id v H. unfold enc_type_attrs. destruct (nth_error E id) as [td|]; [|reflexivity].
    rewrite enc_start_ext by assumption. reflexivity.
  Qed.
End Ext.

Lemma enc_all_ext : forall x E n m v, height v < n -> height v < m ->
  (forall id h, fst (enc_all x E n) id v h = fst (enc_all x E m) id v h) /\
  (forall id, snd (enc_all x E n) id v = snd (enc_all x E m) id v).
Proof.
  intros x E. induction n as [|n IH]; intros [|m] v Hn Hm; try lia. cbn [enc_all fst snd]. split.
  - intros id h. apply (enc_type_ext x E _ _ _ _ (height v)); [| |lia]; intros; apply IH; lia.
  - intros id. apply (enc_type_attrs_ext x E _ _ _ _ (height v)); [| |lia]; intros; apply IH; lia.
Qed.

(** [encode] satisfies its defining equations. *)
Lemma encode_eq : forall x E id v h,
  encode x E id v h = enc_type x E (encode x E) (encode_attrs x E) id v h.
Proof.
  intros. unfold encode at 1. cbn [enc_all fst]. apply (enc_type_ext x E _ _ _ _ (height v)); [| |lia].
  - intros id' w h' Hw. apply (enc_all_ext x E (height v) (S (height w)) w); lia.
  - intros id' w Hw. apply (enc_all_ext x E (height v) (S (height w)) w); lia.
Qed.
Lemma encode_attrs_eq : forall x E id v,
  encode_attrs x E id v = enc_type_attrs x E (encode x E) (encode_attrs x E) id v.
Proof.
  intros. unfold encode_attrs at 1. cbn [enc_all snd]. apply (enc_type_attrs_ext x E _ _ _ _ (height v)); [| |lia].
  - intros id' w h' Hw. apply (enc_all_ext x E (height v) (S (height w)) w); lia.
  - intros id' w Hw. apply (enc_all_ext x E (height v) (S (height w)) w); lia.
Qed.

(** ** Well-typed values are written *)
Section Total.
  Variable x : ext.
  Variable E : env.
  Hypothesis HE : serializable E.

  Lemma show_total : forall s v, has_simple s v -> show_simple x s v <> None.
  Proof. intros s v H. destruct H; discriminate. Qed.

  Section Step.
  Variable k : nat.
  Hypothesis IH : forall id v, height v < k -> Typed E id v ->
    (forall h, encode x E id v h <> None) /\ encode_attrs x E id v <> None.

  Lemma bshow_total : forall q b v, height v < k -> BTyped E b v -> forall h,
    match b with
    | BSimple s => enc_simple x q s v
    | BUser id => encode x E id v h
    end <> None.
  Proof.
    intros q b v Hk H h. destruct H as [s v H|id v H].
    - unfold enc_simple. apply omap_none. apply show_total; assumption.
    - apply IH; assumption.
  Qed.
  Lemma attr_show_total : forall b v, height v < k -> BTyped E b v -> attr_show x (encode x E) b v <> None.
  Proof.
    intros b v Hk H. destruct H as [s v H|id v H]; cbn; [apply show_total; assumption|]. apply omap_none. apply IH; assumption.
  Qed.
  Lemma tag_total : forall ra self fs vs, (forall f, In f fs -> field_serializable f) ->
    (forall v, In v vs -> height v < k) -> FieldsTyped E fs vs ->
    enc_tag x (encode x E) (encode_attrs x E) ra self fs vs <> None.
  Proof.
    intros ra self. induction fs as [|f fs IHf]; intros vs Hs Hk H; inversion H; subst; [discriminate|].
    cbn [enc_tag].
    match goal with |- context [enc_tag x (encode x E) (encode_attrs x E) ra self fs ?vs0] =>
      assert (Hr : enc_tag x (encode x E) (encode_attrs x E) ra self fs vs0 <> None)
        by (apply IHf; [intros; apply Hs; right; assumption|intros; apply Hk; right; assumption|assumption]);
      destruct (enc_tag x (encode x E) (encode_attrs x E) ra self fs vs0) as [[[own child] ns]|]; [clear Hr|congruence] end.
    specialize (Hs f (or_introl eq_refl)). unfold field_serializable in Hs.
    specialize (Hk _ (or_introl eq_refl)).
    destruct (ya_attribute (f_attrs f)) eqn:Hattr.
    - apply omap_none. unfold enc_attr. destruct (f_ty f) as [b|b|b|b].
      + match goal with H : FTyped _ _ _ |- _ => inversion H; subst end. apply omap_none. apply attr_show_total; assumption.
      + match goal with H : FTyped _ _ _ |- _ => inversion H; subst end; [discriminate|]. apply omap_none. cbn in Hk. apply attr_show_total; [lia|assumption].
      + match goal with H : FTyped _ _ _ |- _ => inversion H; subst end. discriminate.
      + exfalso; exact (Hs b eq_refl).
    - destruct (ya_flatten (f_attrs f)); [|discriminate].
      destruct (f_ty f) as [[s|id]|b|b|b]; try discriminate. apply omap_none.
      match goal with H : FTyped _ _ _ |- _ => inversion H; subst end.
      match goal with H : BTyped _ _ _ |- _ => inversion H; subst end. apply IH; assumption.
  Qed.

  Lemma items_total : forall q b l h, (forall w, In w l -> height w < k) -> (forall w, In w l -> BTyped E b w) ->
    oconcat (fun w => match b with BSimple s => enc_simple x q s w | BUser id => encode x E id w h end) l <> None.
  Proof. intros q b l h Hk Hb. apply oconcat_none. intros w Hw. apply bshow_total; auto. Qed.

  Lemma field_total : forall ra self f v, field_serializable f -> height v < k -> FTyped E (f_ty f) v ->
    enc_field x (encode x E) ra self f v <> None.
  Proof.
    intros ra self f v Hs Hk H. unfold field_serializable in Hs. unfold enc_field.
    destruct (ya_attribute (f_attrs f)); [discriminate|].
    destruct (ya_text (f_attrs f)).
    { destruct Hs as [Hs|Hs]; rewrite Hs in H |- *; inversion H; subst; try discriminate;
        match goal with H : BTyped _ _ _ |- _ => inversion H; subst end;
        match goal with H : has_simple _ _ |- _ => inversion H; subst end; discriminate. }
    destruct (left_out x self v f true); [discriminate|].
    destruct (ya_cdata (f_attrs f)).
    { rewrite Hs in H |- *. inversion H; subst.
      match goal with H : BTyped _ _ _ |- _ => inversion H; subst end;
        match goal with H : has_simple _ _ |- _ => inversion H; subst end; discriminate. }
    set (q := field_qname ra f). set (h := if ya_flatten (f_attrs f) then Inside else Under (Some q)).
    inversion H as [b w Hb|b|b w Hb|b l Hl|b|b l Hl]; subst; try discriminate.
    - pose proof (bshow_total q b v Hk Hb h) as Hx. destruct b; exact Hx.
    - destruct b; discriminate.
    - assert (Hw : height w < k) by (cbn in Hk; lia). pose proof (bshow_total q b w Hw Hb h) as Hx. destruct b; exact Hx.
    - pose proof (items_total q b l h (vec_below k l Hk) Hl) as Hx. destruct b; exact Hx.
    - destruct b; [discriminate|]. symmetry in H0. exfalso; exact (Hs _ H0).
    - assert (Hw : height (VVec l) < k) by (cbn in Hk |- *; lia). pose proof (items_total q b l h (vec_below k l Hw) Hl) as Hx.
      destruct b; [exact Hx|]. symmetry in H0. exfalso; exact (Hs _ H0).
  Qed.

  Lemma fields_total : forall ra self fs vs, (forall f, In f fs -> field_serializable f) ->
    (forall v, In v vs -> height v < k) -> FieldsTyped E fs vs ->
    enc_fields x (encode x E) ra self fs vs <> None.
  Proof.
    intros ra self. induction fs as [|f fs IHf]; intros vs Hs Hk H; inversion H; subst; [discriminate|].
    cbn [enc_fields]. apply oapp_none.
    - apply field_total; [apply Hs; left; reflexivity|apply Hk; left; reflexivity|assumption].
    - apply IHf; [intros; apply Hs; right; assumption|intros; apply Hk; right; assumption|assumption].
  Qed.

  Lemma named_total : forall ra fs vs, (forall f, In f fs -> f_ty f <> TVec (BSimple SString)) ->
    (forall v, In v vs -> height v < k) -> FieldsTyped E fs vs ->
    enc_named_fields x (encode x E) ra fs vs <> None.
  Proof.
    intros ra. induction fs as [|f fs IHf]; intros vs Hs Hk H; inversion H; subst; [discriminate|].
    cbn [enc_named_fields]. apply oapp_none.
    - specialize (Hs f (or_introl eq_refl)). specialize (Hk _ (or_introl eq_refl)).
      unfold enc_named_field. set (q := field_qname ra f).
      match goal with H : FTyped _ _ _ |- _ => inversion H as [b w Hb|b|b w Hb|b l Hl|b|b l Hl]; subst end; try discriminate.
      + pose proof (bshow_total q b v Hk Hb (Under (Some q))) as Hx. destruct b; exact Hx.
      + apply oconcat_none. intros w Hw. specialize (Hl w Hw). pose proof (vec_below k l Hk w Hw) as Hw'.
        destruct Hl as [s v Hv|id v Hv]; cbn [enc_item]; [|apply IH; assumption].
        destruct s; try (apply omap_none; apply show_total; assumption). congruence.
    - apply IHf; [intros; apply Hs; right; assumption|intros; apply Hk; right; assumption|assumption].
  Qed.

  Lemma payload_item_total : forall q b v, height v < k -> BTyped E b v -> enc_payload_item x (encode x E) q b v <> None.
  Proof.
    intros q b v Hk H. unfold enc_payload_item. apply omap_none. destruct H as [s v H|id v H].
    - destruct H; discriminate.
    - cbn [enc_item]. apply IH; assumption.
  Qed.
  Lemma payload_total : forall h q fl t v, (forall b, t <> TOptVec b) -> height v < k -> FTyped E t v ->
    enc_payload x (encode x E) h q fl t v <> None.
  Proof.
    intros h q fl t v Hn Hk H. unfold enc_payload. destruct H as [b v Hb|b|b v Hb|b l Hl|b|b l Hl].
    - destruct Hb as [s v Hv|id v Hv].
      + apply omap_none. apply show_total; assumption.
      + destruct fl; [apply IH; assumption|]. apply payload_item_total; [assumption|constructor; assumption].
    - discriminate.
    - apply payload_item_total; [cbn in Hk; lia|assumption].
    - apply oconcat_none. intros w Hw. apply payload_item_total; [eapply vec_below; eassumption|auto].
    - exfalso; exact (Hn b eq_refl).
    - exfalso; exact (Hn b eq_refl).
  Qed.

  Lemma content_total : forall h id td v, nth_error E id = Some td -> height v <= k -> Typed E id v ->
    (forall p, t_body td <> DPrim p) ->
    enc_content x (encode x E) h td v <> None /\ enc_start x (encode x E) (encode_attrs x E) td v <> None.
  Proof.
    intros h id td v Htd Hk H Hp. pose proof (HE id td Htd) as Hs.
    assert (Hbelow : forall l, S (list_max (map height l)) <= k -> forall w, In w l -> height w < k).
    { intros l Hl w Hw. apply height_in in Hw. lia. }
    unfold enc_content, enc_start.
    inversion H; subst;
      match goal with H : nth_error E id = Some ?t |- _ => assert (t = td) by congruence; subst t end;
      match goal with H : t_body td = _ |- _ => rewrite H in *; try (exfalso; eapply Hp; reflexivity) end.
    - cbn [height] in Hk. split; [apply fields_total|apply tag_total]; try exact (Hbelow _ Hk); auto.
    - match goal with H : nth_error _ _ = Some (Variant _ _ _) |- _ => rewrite H in * end. split; discriminate.
    - match goal with H : nth_error _ _ = Some (Variant _ _ _) |- _ => rewrite H in *; apply nth_error_In in H; apply Hs in H end.
      split; [|discriminate]. cbn [enc_variant v_body]. apply payload_total; [|apply (Hbelow [_] Hk); left; reflexivity|assumption].
      assumption.
    - match goal with H : nth_error _ _ = Some (Variant _ _ _) |- _ => rewrite H in *; apply nth_error_In in H; apply Hs in H end.
      split; [|discriminate]. cbn [enc_variant v_body]. cbn [height] in Hk. apply named_total; try exact (Hbelow _ Hk); auto.
  Qed.
  End Step.

  Theorem encode_total : forall k id v, height v < k -> Typed E id v ->
    (forall h, encode x E id v h <> None) /\ encode_attrs x E id v <> None.
  Proof.
    induction k as [|k IH]; intros id v Hk H; [lia|]. rewrite encode_attrs_eq.
    assert (Hd : exists td, nth_error E id = Some td) by (inversion H; subst; eauto). destruct Hd as [td Htd].
    assert (Hsh : forall p, t_body td = DPrim p -> show_prim x (t_name td) p v <> None).
    { intros p Hp. inversion H; subst;
        match goal with H : nth_error E id = Some ?t |- _ => assert (t = td) by congruence; subst t end;
        try congruence.
      - assert (p = PInner s) by congruence. subst p. apply show_total; assumption.
      - assert (p = PHex t mask) by congruence. subst p. discriminate.
      - assert (p = PUser) by congruence. subst p. discriminate. }
    assert (Hc : forall h, (forall p, t_body td <> DPrim p) ->
       enc_content x (encode x E) h td v <> None /\ enc_start x (encode x E) (encode_attrs x E) td v <> None).
    { intros h Hp. apply (content_total k IH h id td v); auto; lia. }
    split.
    - intros h. rewrite encode_eq. unfold enc_type. rewrite Htd.
      assert (Hn : (forall p, t_body td <> DPrim p) ->
        match h with
        | Inside => enc_content x (encode x E) h td v
        | Under o => if ya_flatten (t_attrs td) then enc_content x (encode x E) h td v
            else match enc_start x (encode x E) (encode_attrs x E) td v, enc_content x (encode x E) h td v with
                 | Some (own, child, ns), Some ks =>
                     Some [WElem (qname (opt_default (ser_root td) o)) (own ++ child) (ns_extend (declared (t_attrs td)) ns) ks]
                 | _, _ => None
                 end
        end <> None).
      { intros Hp. destruct (Hc h Hp) as [H1 H2]. destruct h as [|o]; [exact H1|]. destruct (ya_flatten (t_attrs td)); [exact H1|].
        destruct (enc_start x (encode x E) (encode_attrs x E) td v) as [[[own child] ns]|]; [|congruence].
        destruct (enc_content x (encode x E) (Under o) td v); congruence. }
      destruct (t_body td) as [fs|vars d|p] eqn:Hb.
      + destruct h; apply Hn; discriminate.
      + destruct h; apply Hn; discriminate.
      + specialize (Hsh p eq_refl). destruct h; apply omap_none; exact Hsh.
    - unfold enc_type_attrs. rewrite Htd. destruct (t_body td) as [fs|vars d|p] eqn:Hb; [| |discriminate];
        apply omap_none; apply (Hc Inside); discriminate.
  Qed.
End Total.

Theorem ser_total : forall x E id v, serializable E -> Typed E id v -> exists l, ser_events x E id v = SOk l.
Proof.
  intros x E id v HE H. destruct (encode_total x E HE _ id v (le_n _) H) as [Ht _].
  pose proof (ser_events_encode x E id v) as He. specialize (Ht (Under None)).
  destruct (encode x E id v (Under None)) as [ts|]; [eauto|congruence].
Qed.

(** ** Nesting *)
Lemma nested_app : forall l l', Nested l -> Nested l' -> Nested (l ++ l').
Proof.
  intros l l' H H'. induction H; cbn [app]; [exact H'|constructor; assumption|constructor; assumption|].
  rewrite <- app_assoc. cbn [app]. constructor; assumption.
Qed.
Lemma nested_tree : forall t, Nested (wtree t).
Proof.
  induction t as [s|s|n a m ks IH] using wnode_ind'; cbn [wtree]; [constructor; constructor|constructor; constructor|].
  apply ne_elem; [|constructor]. induction ks as [|k ks IHk]; [constructor|]. cbn [flat_map]. apply nested_app.
  - apply IH. left; reflexivity.
  - apply IHk. intros; apply IH; right; assumption.
Qed.
Lemma nested_forest : forall ts, Nested (flat_map wtree ts).
Proof. induction ts as [|t ts IH]; [constructor|]. cbn [flat_map]. apply nested_app; [apply nested_tree|exact IH]. Qed.

Theorem ser_nested : forall x E id v l, ser_events x E id v = SOk l -> Nested l.
Proof.
  intros x E id v l H. pose proof (ser_events_encode x E id v) as He.
  destruct (encode x E id v (Under None)) as [ts|]; [|exfalso; exact (He l H)].
  assert (l = flat_map wtree ts) by congruence. subst l. apply nested_forest.
Qed.

Lemma encode_under : forall x E id td o v ts, nth_error E id = Some td -> has_element td ->
  encode x E id v (Under o) = Some ts ->
  exists a m ks, ts = [WElem (qname (opt_default (match t_body td with DPrim _ => t_name td | _ => ser_root td end) o)) a m ks].
Proof.
  intros x E id td o v ts Htd Hf H. rewrite encode_eq in H. unfold enc_type in H. rewrite Htd in H.
  assert (Hn : ya_flatten (t_attrs td) = false -> (if ya_flatten (t_attrs td) then enc_content x (encode x E) (Under o) td v
            else match enc_start x (encode x E) (encode_attrs x E) td v, enc_content x (encode x E) (Under o) td v with
                 | Some (own, child, ns), Some ks =>
                     Some [WElem (qname (opt_default (ser_root td) o)) (own ++ child) (ns_extend (declared (t_attrs td)) ns) ks]
                 | _, _ => None
                 end) = Some ts -> exists a m ks, ts = [WElem (qname (opt_default (ser_root td) o)) a m ks]).
  { intros Hfl. rewrite Hfl. destruct (enc_start x (encode x E) (encode_attrs x E) td v) as [[[own child] ns]|]; [|discriminate].
    destruct (enc_content x (encode x E) (Under o) td v); [|discriminate]. intros Hx. injection Hx as <-. eauto. }
  destruct (t_body td) as [fs|vars d|p] eqn:Hb.
  - destruct Hf as [[p Hf]|Hf]; [congruence|]. apply Hn; assumption.
  - destruct Hf as [[p Hf]|Hf]; [congruence|]. apply Hn; assumption.
  - apply omap_some in H. destruct H as (t & _ & ->). unfold text_elem. eauto.
Qed.

(** ** [Written] and [Content] *)
Lemma written_encode : forall x E id o v l,
  Written x E id o v l <-> omap (flat_map wtree) (encode x E id v (Under o)) = Some l.
Proof.
  intros x E id o v l.
  assert (Hgen : forall w, w_skip w = false -> w_name w = o ->
    match encode x E id v (Under o) with
    | Some ts => exists w', ser x E id v (fun _ => false) w = (SOk tt, w') /\
             w_evs w' = w_evs w ++ flat_map wtree ts /\ w_stack w' = w_stack w
    | None => fst (ser x E id v (fun _ => false) w) <> SOk tt
    end).
  { intros w H1 H2. pose proof (ser_agrees x E never (covers_never E) id v (Under o) w) as H.
    unfold how_of in H. rewrite H1, H2 in H. specialize (H eq_refl).
    destruct (encode x E id v (Under o)) as [ts|]; cbn [omap] in H; [|exact H].
    destruct (writes_forest ts w) as (w' & Hw1 & Hw2 & Hw3). rewrite Hw1 in H.
    change (fun _ : nat => false) with never. destruct (ser x E id v never w) as [[[]|m|] w1]; destruct H as [Hc Hr]; cbn in Hc, Hr; try tauto.
    exists w1. split; [reflexivity|]. unfold core in Hc. injection Hc as Hc1 Hc2 _. split; congruence. }
  split.
  - intros H. specialize (H (WState [] [] 0 false o) eq_refl eq_refl). destruct H as (w' & H1 & H2 & H3).
    specialize (Hgen (WState [] [] 0 false o) eq_refl eq_refl). destruct (encode x E id v (Under o)) as [ts|].
    + destruct Hgen as (w2 & G1 & G2 & _). rewrite H1 in G1. injection G1 as <-. cbn [w_evs app] in *. cbn. congruence.
    + exfalso. apply Hgen. rewrite H1. reflexivity.
  - intros H. apply omap_some in H. destruct H as (ts & H & ->). intros w H1 H2. specialize (Hgen w H1 H2). rewrite H in Hgen. exact Hgen.
Qed.
Lemma content_encode : forall x E id v l,
  Content x E id v l <-> omap (flat_map wtree) (encode x E id v Inside) = Some l.
Proof.
  intros x E id v l.
  assert (Hgen : forall w, w_skip w = true ->
    match encode x E id v Inside with
    | Some ts => exists w', ser x E id v (fun _ => false) w = (SOk tt, w') /\
             w_evs w' = w_evs w ++ flat_map wtree ts /\ w_stack w' = w_stack w
    | None => fst (ser x E id v (fun _ => false) w) <> SOk tt
    end).
  { intros w H1. pose proof (ser_agrees x E never (covers_never E) id v Inside w) as H.
    unfold how_of in H. rewrite H1 in H. specialize (H eq_refl).
    destruct (encode x E id v Inside) as [ts|]; cbn [omap] in H; [|exact H].
    destruct (writes_forest ts w) as (w' & Hw1 & Hw2 & Hw3). rewrite Hw1 in H.
    change (fun _ : nat => false) with never. destruct (ser x E id v never w) as [[[]|m|] w1]; destruct H as [Hc Hr]; cbn in Hc, Hr; try tauto.
    exists w1. split; [reflexivity|]. unfold core in Hc. injection Hc as Hc1 Hc2 _. split; congruence. }
  split.
  - intros H. specialize (H (WState [] [] 0 true None) eq_refl). destruct H as (w' & H1 & H2 & H3).
    specialize (Hgen (WState [] [] 0 true None) eq_refl). destruct (encode x E id v Inside) as [ts|].
    + destruct Hgen as (w2 & G1 & G2 & _). rewrite H1 in G1. injection G1 as <-. cbn [w_evs app] in *. cbn. congruence.
    + exfalso. apply Hgen. rewrite H1. reflexivity.
  - intros H. apply omap_some in H. destruct H as (ts & H & ->). intros w H1. specialize (Hgen w H1). rewrite H in Hgen. exact Hgen.
Qed.

Theorem events_written : forall x E id v l, ser_events x E id v = SOk l <-> Written x E id None v l.
Proof.
  intros x E id v l. rewrite written_encode. pose proof (ser_events_encode x E id v) as He.
  destruct (encode x E id v (Under None)) as [ts|]; cbn [omap].
  - rewrite He. split; congruence.
  - split; [intros H; exfalso; exact (He l H)|discriminate].
Qed.

Theorem written_one : forall x E id td o v l, nth_error E id = Some td -> has_element td ->
  Written x E id o v l ->
  one_element (qname (match o with Some q => q | None => match t_body td with DPrim _ => t_name td | _ => ser_root td end end)) l.
Proof.
  intros x E id td o v l Htd Hf H. apply written_encode in H. apply omap_some in H. destruct H as (ts & H & ->).
  destruct (encode_under x E id td o v ts Htd Hf H) as (a & m & ks & ->).
  exists a, m, (flat_map wtree ks). split; [|apply nested_forest]. cbn [flat_map wtree]. rewrite app_nil_r.
  destruct o; reflexivity.
Qed.
Theorem written_function : forall x E id o v l l', Written x E id o v l -> Written x E id o v l' -> l = l'.
Proof. intros x E id o v l l' H H'. apply written_encode in H, H'. congruence. Qed.

(** ** Fields *)
Lemma left_out_suppressed : forall x self v f, left_out x self v f true = true <-> suppressed x self f v.
Proof.
  intros. unfold left_out, suppressed, unneeded. cbn [andb]. rewrite !orb_true_iff. split.
  - intros [[H|H]|H]; [left; exact H|right; left|right; right].
    + destruct (ya_skip_if (f_attrs f)); [eauto|discriminate].
    + destruct (ya_default (f_attrs f)); [apply equal_values in H; eauto|discriminate].
  - intros [H|[(g & H1 & H2)|(g & H1 & H2)]]; [left; left; exact H|left; right|right]; rewrite H1; [exact H2|apply equal_values; exact H2].
Qed.
Lemma left_out_unneeded : forall x self v f, left_out x self v f false = true <-> unneeded x self f v.
Proof.
  intros. unfold left_out, unneeded. cbn [andb orb]. rewrite !orb_true_iff. split.
  - intros [H|H]; [left|right].
    + destruct (ya_skip_if (f_attrs f)); [eauto|discriminate].
    + destruct (ya_default (f_attrs f)); [apply equal_values in H; eauto|discriminate].
  - intros [(g & H1 & H2)|(g & H1 & H2)]; [left|right]; rewrite H1; [exact H2|apply equal_values; exact H2].
Qed.

Section Fields.
  Variable x : ext.
  Variable E : env.
  Notation enc := (encode x E).

  Lemma items_out : forall (fl : bool) q b l ts,
    oconcat (fun w => match b with BSimple s => enc_simple x q s w | BUser id => enc id w (if fl then Inside else Under (Some q)) end) l = Some ts ->
    exists parts, Forall2 (ItemOut x E fl q b) l parts /\ concat parts = flat_map wtree ts.
  Proof.
    intros fl q b. induction l as [|w l IH]; intros ts H.
    - injection H as <-. exists []. split; [constructor|reflexivity].
    - cbn [oconcat] in H. apply oapp_some in H. destruct H as (t1 & t2 & H1 & H2 & ->).
      destruct (IH t2 H2) as (parts & Hp1 & Hp2). exists (flat_map wtree t1 :: parts). split.
      + constructor; [|exact Hp1]. destruct b as [s|id].
        * apply omap_some in H1. destruct H1 as (t & Ht & ->). apply io_simple; exact Ht.
        * destruct fl; [apply io_flat; [reflexivity|]; apply content_encode|apply io_user; [reflexivity|]; apply written_encode]; rewrite H1; reflexivity.
      + cbn [concat]. rewrite Hp2, flat_map_app. reflexivity.
  Qed.

  Lemma field_out : forall ra self f v ts, enc_field x enc ra self f v = Some ts ->
    FieldOut x E ra self f v (flat_map wtree ts).
  Proof.
    intros ra self f v ts H. unfold enc_field in H.
    destruct (ya_attribute (f_attrs f)) eqn:Hattr; [injection H as <-; apply fo_attribute; exact Hattr|].
    destruct (ya_text (f_attrs f)) eqn:Htext.
    { destruct (f_ty f) as [[[]|]|[[]|]|b|b] eqn:Ht; try discriminate;
        destruct v as [s1| | | | |[[s2| | | | | | | |]|]| | |]; try discriminate; injection H as <-.
      - apply fo_text; assumption.
      - apply fo_text_some; assumption.
      - apply fo_text_none; assumption. }
    destruct (left_out x self v f true) eqn:Hl.
    { injection H as <-. apply fo_suppressed; [assumption|assumption|]. apply left_out_suppressed; exact Hl. }
    assert (Hns : ~ suppressed x self f v). { intros Hx. apply left_out_suppressed in Hx. congruence. }
    destruct (ya_cdata (f_attrs f)) eqn:Hcd.
    { destruct (f_ty f) as [[[]|]|b|b|b] eqn:Ht; try discriminate. destruct v; try discriminate. injection H as <-.
      apply fo_cdata; assumption. }
    assert (Hi : forall items, items_of (f_ty f) v = Some items ->
       oconcat (fun w => match base_type (f_ty f) with BSimple s => enc_simple x (field_qname ra f) s w | BUser id => enc id w (if ya_flatten (f_attrs f) then Inside else Under (Some (field_qname ra f))) end) items = Some ts ->
       FieldOut x E ra self f v (flat_map wtree ts)).
    { intros items Hit Ho. apply items_out in Ho. destruct Ho as (parts & Hp1 & <-).
      apply (fo_items x E ra self f v items parts); assumption. }
    assert (Hone : forall o : option (list wnode), o = Some ts -> oapp o (Some []) = Some ts).
    { intros o ->. cbn. rewrite app_nil_r. reflexivity. }
    destruct (f_ty f) as [[s|id]|[s|id]|[s|id]|[s|id]] eqn:Ht; cbn [base_type] in Hi.
    - apply (Hi [v]); [reflexivity|]. apply Hone; exact H.
    - apply (Hi [v]); [reflexivity|]. apply Hone; exact H.
    - destruct v as [| | | | |[w|]| | |]; try discriminate; [apply (Hi [w]); [reflexivity|apply Hone; exact H]|apply (Hi []); [reflexivity|exact H]].
    - destruct v as [| | | | |[w|]| | |]; try discriminate; [apply (Hi [w]); [reflexivity|apply Hone; exact H]|apply (Hi []); [reflexivity|exact H]].
    - destruct v as [| | | | | |l| |]; try discriminate. apply (Hi l); [reflexivity|exact H].
    - destruct v as [| | | | | |l| |]; try discriminate. apply (Hi l); [reflexivity|exact H].
    - destruct v as [| | | | |[[| | | | | |l| |]|]| | |]; try discriminate; [apply (Hi l); [reflexivity|exact H]|apply (Hi []); [reflexivity|exact H]].
    - destruct v as [| | | | |[[| | | | | |l| |]|]| | |]; discriminate.
  Qed.

  Lemma fields_out : forall ra self fs vs ts, enc_fields x enc ra self fs vs = Some ts ->
    exists parts, Forall3 (FieldOut x E ra self) fs vs parts /\ concat parts = flat_map wtree ts.
  Proof.
    intros ra self. induction fs as [|f fs IH]; intros [|v vs] ts H; try discriminate.
    - injection H as <-. exists []. split; [constructor|reflexivity].
    - cbn [enc_fields] in H. apply oapp_some in H. destruct H as (t1 & t2 & H1 & H2 & ->).
      destruct (IH vs t2 H2) as (parts & Hp1 & Hp2). exists (flat_map wtree t1 :: parts). split.
      + constructor; [|exact Hp1]. apply field_out; exact H1.
      + cbn [concat]. rewrite Hp2, flat_map_app. reflexivity.
  Qed.

  Lemma attr_show_text : forall b w t, attr_show x enc b w = Some t -> AttrText x E b w t.
  Proof.
    intros [s|id] w t H; cbn [attr_show] in H; [constructor; exact H|]. apply omap_some in H. destruct H as (ts & H & ->).
    constructor. apply content_encode. rewrite H. reflexivity.
  Qed.
  Lemma attr_out : forall ra self f v l, ya_attribute (f_attrs f) = true -> enc_attr x enc ra self f v = Some l ->
    AttrOut x E ra self f v l.
  Proof.
    intros ra self f v l Ha H. unfold enc_attr in H.
    assert (Hone : forall b w, (f_ty f = TBase b /\ v = w \/ f_ty f = TOpt b /\ v = VOpt (Some w)) ->
      omap (fun t => if left_out x self v f false then [] else [Attr (qname (field_qname ra f)) t]) (attr_show x enc b w) = Some l ->
      AttrOut x E ra self f v l).
    { intros b w Hbw Ho. apply omap_some in Ho. destruct Ho as (t & Ht & ->). destruct (left_out x self v f false) eqn:Hl.
      - apply ao_unneeded; [exact Ha|]. apply left_out_unneeded; exact Hl.
      - apply (ao_one x E ra self f b v w t); [exact Ha| |exact Hbw|apply attr_show_text; exact Ht].
        intros Hu. apply left_out_unneeded in Hu. congruence. }
    destruct (f_ty f) as [b|b|b|b] eqn:Ht.
    - apply (Hone b v); [left; auto|exact H].
    - destruct v as [| | | | |[w|]| | |]; try discriminate; [apply (Hone b w); [right; auto|exact H]|].
      injection H as <-. eapply ao_none; eassumption.
    - destruct v; try discriminate. injection H as <-. eapply ao_vec; eassumption.
    - destruct v as [| | | | |[w|]| | |]; discriminate.
  Qed.

  Lemma tag_out : forall ra self fs vs own child ns,
    enc_tag x enc (encode_attrs x E) ra self fs vs = Some (own, child, ns) ->
    (exists parts, Forall3 (AttrOut x E ra self) fs vs parts /\ concat parts = own) /\
    (flattens fs = false -> child = [] /\ ns = []).
  Proof.
    intros ra self. induction fs as [|f fs IH]; intros [|v vs] own child ns H; try discriminate.
    - injection H as <- <- <-. split; [exists []; split; [constructor|reflexivity]|auto].
    - cbn [enc_tag] in H. destruct (enc_tag x enc (encode_attrs x E) ra self fs vs) as [[[own' child'] ns']|] eqn:Hr; [|discriminate].
      destruct (IH vs own' child' ns' Hr) as ((parts & Hp1 & Hp2) & Hfl).
      destruct (ya_attribute (f_attrs f)) eqn:Ha.
      + apply omap_some in H. destruct H as (l & Hl & Hx). injection Hx as -> -> ->. split.
        * exists (l :: parts). split; [|cbn; congruence]. constructor; [|exact Hp1]. apply attr_out; assumption.
        * intros Hf. apply Hfl. unfold flattens in *. cbn [existsb] in Hf. apply orb_false_iff in Hf. tauto.
      + assert (Hd : own = own' /\ (flattens (f :: fs) = false -> child = [] /\ ns = [])).
        { destruct (ya_flatten (f_attrs f)) eqn:Hf.
          - destruct (f_ty f) as [[s|id]|b|b|b]; try (injection H as <- <- <-; split; [reflexivity|]; unfold flattens; cbn [existsb flat_field]; unfold flat_field; rewrite Ha, Hf; discriminate).
            apply omap_some in H. destruct H as ([ca cn] & _ & Hx). injection Hx as -> -> ->.
            split; [reflexivity|]. unfold flattens; cbn [existsb]; unfold flat_field; rewrite Ha, Hf; discriminate.
          - injection H as <- <- <-. split; [reflexivity|]. intros Hx. apply Hfl. unfold flattens in *. cbn [existsb] in Hx.
            apply orb_false_iff in Hx. tauto. }
        destruct Hd as [-> Hd]. split; [|exact Hd]. exists ([] :: parts). split; [|exact Hp2]. constructor; [|exact Hp1].
        apply ao_element; exact Ha.
  Qed.
End Fields.

Theorem struct_out : forall x E id td fs o vs l,
  struct_type E id td fs -> ya_flatten (t_attrs td) = false -> Written x E id o (VRec vs) l ->
  exists own child m parts aparts,
    l = WStart (qname (match o with Some q => q | None => ser_root td end)) (own ++ child) m :: concat parts ++ [WEnd None] /\
    Forall3 (FieldOut x E (t_attrs td) (VRec vs)) fs vs parts /\
    Forall3 (AttrOut x E (t_attrs td) (VRec vs)) fs vs aparts /\ own = concat aparts /\
    (flattens fs = false -> child = []).
Proof.
  intros x E id td fs o vs l [Htd Hb] Hfl H. apply written_encode in H. apply omap_some in H. destruct H as (ts & H & ->).
  rewrite encode_eq in H. unfold enc_type in H. rewrite Htd, Hb, Hfl in H.
  destruct (enc_start x (encode x E) (encode_attrs x E) td (VRec vs)) as [[[own child] ns]|] eqn:Hs; [|discriminate].
  destruct (enc_content x (encode x E) (Under o) td (VRec vs)) as [ks|] eqn:Hc; [|discriminate]. injection H as <-.
  unfold enc_start in Hs. rewrite Hb in Hs. unfold enc_content in Hc. rewrite Hb in Hc.
  apply tag_out in Hs. destruct Hs as ((aparts & Ha1 & Ha2) & Hch). apply fields_out in Hc. destruct Hc as (parts & Hp1 & Hp2).
  exists own, child, (ns_extend (declared (t_attrs td)) ns), parts, aparts. split.
  - cbn [flat_map wtree]. rewrite app_nil_r, Hp2. destruct o; reflexivity.
  - split; [exact Hp1|]. split; [exact Ha1|]. split; [congruence|]. intros Hf. apply Hch in Hf. tauto.
Qed.

(** ** Write errors *)
Lemma write_ok : forall sched e w, sched (w_calls w) = false -> 
  write e sched w = write e never w.
Proof. intros sched e w H. unfold write, never. rewrite H. reflexivity. Qed.

Lemma writes_calls : forall l w w', writes l never w = (SOk tt, w') -> w_calls w' = w_calls w + List.length l.
Proof.
  induction l as [|e l IH]; intros w w' H; [injection H as <-; cbn; lia|].
  cbn [writes smap] in H. fold (writes l) in H. unfold sbind in H. destruct (write e never w) as [[[]|m|] w1] eqn:He; try discriminate.
  apply IH in H. rewrite H. unfold write, never in He. destruct (emit_check (w_stack w) e) as [st []]; try discriminate.
  injection He as <-. cbn. lia.
Qed.

Lemma writes_until : forall sched l w w', writes l never w = (SOk tt, w') ->
  (forall k, k < List.length l -> sched (w_calls w + k) = false) ->
  writes l sched w = (SOk tt, w').
Proof.
  intros sched. induction l as [|e l IH]; intros w w' H Hs; [exact H|].
  cbn [writes smap] in *. fold (writes l) in *. unfold sbind in *.
  rewrite write_ok by (specialize (Hs 0 ltac:(cbn; lia)); rewrite Nat.add_0_r in Hs; exact Hs).
  destruct (write e never w) as [[[]|m|] w1] eqn:He; try discriminate.
  apply IH; [exact H|]. intros k Hk. 
  assert (Hc : w_calls w1 = S (w_calls w)).
  { unfold write, never in He. destruct (emit_check (w_stack w) e) as [st []]; try discriminate. injection He as <-. reflexivity. }
  rewrite Hc. specialize (Hs (S k) ltac:(cbn; lia)). rewrite Nat.add_succ_r in Hs. exact Hs.
Qed.

Lemma writes_fail : forall sched l n w w', writes l never w = (SOk tt, w') -> n < List.length l ->
  (forall k, k < n -> sched (w_calls w + k) = false) -> sched (w_calls w + n) = true ->
  exists m w2, writes l sched w = (SErr m, w2) /\ w_evs w2 = w_evs w ++ firstn n l /\ w_calls w2 = S (w_calls w + n).
Proof.
  intros sched. induction l as [|e l IH]; intros n w w' H Hn Hs Hf; [cbn in Hn; lia|].
  cbn [writes smap] in *. fold (writes l) in *. unfold sbind in *.
  destruct n as [|n].
  - rewrite Nat.add_0_r in Hf. unfold write at 1. rewrite Hf. do 2 eexists. split; [reflexivity|].
    cbn. rewrite app_nil_r. split; [reflexivity|lia].
  - rewrite write_ok by (specialize (Hs 0 ltac:(lia)); rewrite Nat.add_0_r in Hs; exact Hs).
    destruct (write e never w) as [[[]|m|] w1] eqn:He; try discriminate.
    assert (Hc : w_calls w1 = S (w_calls w) /\ w_evs w1 = w_evs w ++ [e]).
    { unfold write, never in He. destruct (emit_check (w_stack w) e) as [st []]; try discriminate. injection He as <-. split; reflexivity. }
    destruct Hc as [Hc1 Hc2].
    destruct (IH n w1 w' H) as (m & w2 & H1 & H2 & H3).
    + cbn in Hn. lia.
    + intros k Hk. rewrite Hc1. specialize (Hs (S k) ltac:(lia)). rewrite Nat.add_succ_r in Hs. exact Hs.
    + rewrite Hc1. rewrite Nat.add_succ_r in Hf. exact Hf.
    + exists m, w2. split; [exact H1|]. split; [|rewrite H3, Hc1; lia]. rewrite H2, Hc2. cbn [firstn]. rewrite <- app_assoc. reflexivity.
Qed.

Theorem ser_errors : forall x E id v l sched, reports_errors E -> ser_events x E id v = SOk l ->
  ((forall k, k < List.length l -> sched k = false) ->
     exists w, ser x E id v sched w_init = (SOk tt, w) /\ w_evs w = l) /\
  (forall n, n < List.length l -> (forall k, k < n -> sched k = false) -> sched n = true ->
     exists m w, ser x E id v sched w_init = (SErr m, w) /\ w_evs w = firstn n l /\ w_calls w = S n).
Proof.
  intros x E id v l sched HE Hl. pose proof (ser_events_encode x E id v) as He.
  pose proof (ser_agrees x E sched (or_intror HE) id v (Under None) w_init eq_refl) as Ha.
  destruct (encode x E id v (Under None)) as [ts|]; [|exfalso; exact (He l Hl)].
  assert (l = flat_map wtree ts) by congruence. subst l. cbn [omap] in Ha.
  destruct (writes_forest ts w_init) as (w' & H1 & _ & H3). cbn [w_evs w_init app] in H3. split.
  - intros Hs. rewrite (writes_until sched _ w_init w' H1 Hs) in Ha.
    destruct (ser x E id v sched w_init) as [[[]|m|] w1]; destruct Ha as [Hc Hr]; cbn in Hc, Hr; try tauto.
    exists w1. split; [reflexivity|]. unfold core in Hc. injection Hc as Hc _ _. congruence.
  - intros n Hn Hs Hf. destruct (writes_fail sched _ n w_init w' H1 Hn Hs Hf) as (m & w2 & G1 & G2 & G3). rewrite G1 in Ha.
    destruct (ser x E id v sched w_init) as [[[]|m'|] w1]; destruct Ha as [Hc Hr]; cbn in Hc, Hr; try tauto.
    exists m', w1. split; [reflexivity|]. unfold core in Hc. injection Hc as Hc1 _ Hc2. cbn [w_init w_evs app w_calls] in G2, G3. split; [congruence|]. rewrite Hc2, G3. reflexivity.
Qed.

(** A successful run means that all writes were accepted. *)
Theorem ser_ok_accepted : forall x E id v sched w, reports_errors E ->
  ser x E id v sched w_init = (SOk tt, w) ->
  ser_events x E id v = SOk (w_evs w) /\ w_calls w = List.length (w_evs w) /\
  forall k, k < w_calls w -> sched k = false.
Proof.
  intros x E id v sched w HE H.
  pose proof (ser_agrees x E sched (or_intror HE) id v (Under None) w_init eq_refl) as Ha.
  pose proof (ser_events_encode x E id v) as He.
  destruct (encode x E id v (Under None)) as [ts|]; cbn [omap] in Ha; [|rewrite H in Ha; exfalso; apply Ha; reflexivity].
  destruct (writes_forest ts w_init) as (w' & H1 & _ & H3). cbn [w_evs w_init app] in H3.
  set (l := flat_map wtree ts) in *.
  destruct (ser_errors x E id v l sched HE He) as [_ Hfail].
  assert (Hall : forall k, k < List.length l -> sched k = false).
  { intros k. induction k as [k IHk] using (well_founded_induction lt_wf). intros Hk.
    destruct (sched k) eqn:Hs; [|reflexivity]. exfalso.
    destruct (Hfail k Hk (fun j Hj => IHk j Hj ltac:(lia)) Hs) as (m & w2 & G & _). congruence. }
  rewrite (writes_until sched l w_init w' H1 Hall) in Ha. rewrite H in Ha. destruct Ha as [Hc _]. cbn in Hc.
  unfold core in Hc. injection Hc as Hc1 _ Hc3.
  pose proof (writes_calls l w_init w' H1) as Hn. cbn [w_init w_calls] in Hn.
  split; [rewrite Hc1, H3; exact He|]. split; [rewrite Hc1, H3, Hc3; exact Hn|].
  intros k Hk. apply Hall. rewrite Hc3, Hn in Hk. exact Hk.
Qed.

(** ** One field among the others *)
Lemma Forall3_app_inv : forall A B C (P : A -> B -> C -> Prop) l1 a l2 m1 b m2 r,
  List.length m1 = List.length l1 -> Forall3 P (l1 ++ a :: l2) (m1 ++ b :: m2) r ->
  exists r1 c r2, r = r1 ++ c :: r2 /\ Forall3 P l1 m1 r1 /\ P a b c /\ Forall3 P l2 m2 r2.
Proof.
  induction l1 as [|u l1 IH]; intros a l2 [|w m1] b m2 r Hl H; try discriminate; cbn [app] in H; inversion H; subst.
  - exists [], c, lc. repeat split; auto. constructor.
  - match goal with H' : Forall3 P (l1 ++ _) _ _ |- _ => apply IH in H'; [|injection Hl; auto]; destruct H' as (r1 & c' & r2 & -> & H1 & H2 & H3) end.
    exists (c :: r1), c', r2. repeat split; auto. constructor; assumption.
Qed.

Lemma concat_mid : forall A (p1 : list (list A)) c p2, concat (p1 ++ c :: p2) = concat p1 ++ c ++ concat p2.
Proof. intros. rewrite List.concat_app. reflexivity. Qed.

Theorem one_field_out : forall x E id td fs1 f fs2 o vs1 v vs2 l,
  struct_type E id td (fs1 ++ f :: fs2) -> ya_flatten (t_attrs td) = false -> List.length vs1 = List.length fs1 ->
  Written x E id o (VRec (vs1 ++ v :: vs2)) l ->
  exists p, FieldOut x E (t_attrs td) (VRec (vs1 ++ v :: vs2)) f v p /\
    Surrounded x E (t_attrs td) (VRec (vs1 ++ v :: vs2)) fs1 vs1 p fs2 vs2 l.
Proof.
  intros x E id td fs1 f fs2 o vs1 v vs2 l Hst Hfl Hlen H.
  destruct (struct_out _ _ _ _ _ _ _ _ Hst Hfl H) as (own & child & m & parts & aparts & -> & Hp & _).
  apply Forall3_app_inv in Hp; [|exact Hlen]. destruct Hp as (p1 & c & p2 & -> & H1 & H2 & H3).
  exists c. split; [exact H2|]. unfold Surrounded. do 3 eexists. exists p1, p2. split; [|split; assumption].
  rewrite concat_mid, <- !app_assoc. reflexivity.
Qed.

Lemma item_one : forall x E q b v part, base_has_element E b -> ItemOut x E false q b v part -> one_element (qname q) part.
Proof.
  intros x E q b v part Hb H. destruct H as [s v t H|id v l _ H|id v l Hf H]; [| |discriminate].
  - exists [], [], [WChars t]. split; [reflexivity|]. constructor. constructor.
  - destruct (nth_error E id) as [td|] eqn:Htd.
    + pose proof (written_one x E id td (Some q) v l Htd (Hb td Htd) H) as Ho. exact Ho.
    + apply written_encode in H. rewrite encode_eq in H. unfold enc_type in H. rewrite Htd in H. discriminate.
Qed.

Theorem vec_out : forall x E id td fs1 f fs2 o vs1 items vs2 l b,
  struct_type E id td (fs1 ++ f :: fs2) -> ya_flatten (t_attrs td) = false -> List.length vs1 = List.length fs1 ->
  plain_element f -> f_ty f = TVec b -> base_has_element E b ->
  ~ suppressed x (VRec (vs1 ++ VVec items :: vs2)) f (VVec items) ->
  Written x E id o (VRec (vs1 ++ VVec items :: vs2)) l ->
  exists parts,
    Surrounded x E (t_attrs td) (VRec (vs1 ++ VVec items :: vs2)) fs1 vs1 (concat parts) fs2 vs2 l /\
    Forall2 (fun v part => one_element (qname (field_qname (t_attrs td) f)) part /\
                           ItemOut x E false (field_qname (t_attrs td) f) b v part) items parts.
Proof.
  intros x E id td fs1 f fs2 o vs1 items vs2 l b Hst Hfl Hlen (Hpa & Hpt & Hpc & Hpf) Hty Hb Hns H.
  destruct (one_field_out _ _ _ _ _ _ _ _ _ _ _ _ Hst Hfl Hlen H) as (p & Hp & Hs).
  inversion Hp; subst; try congruence; try contradiction.
  match goal with H : items_of _ _ = Some _ |- _ => rewrite Hty in H; injection H as <- end.
  exists parts. split; [exact Hs|].
  match goal with H : Forall2 _ items parts |- _ => rewrite Hpf, Hty in H; cbn [base_type] in H; clear -H Hb;
    induction H; constructor; auto; split; [eapply item_one; eassumption|assumption] end.
Qed.

Theorem none_out : forall x E id td fs1 f fs2 o vs1 vs2 l b,
  struct_type E id td (fs1 ++ f :: fs2) -> ya_flatten (t_attrs td) = false -> List.length vs1 = List.length fs1 ->
  plain_element f -> f_ty f = TOpt b ->
  Written x E id o (VRec (vs1 ++ VOpt None :: vs2)) l ->
  Surrounded x E (t_attrs td) (VRec (vs1 ++ VOpt None :: vs2)) fs1 vs1 [] fs2 vs2 l.
Proof.
  intros x E id td fs1 f fs2 o vs1 vs2 l b Hst Hfl Hlen (Hpa & Hpt & Hpc & Hpf) Hty H.
  destruct (one_field_out _ _ _ _ _ _ _ _ _ _ _ _ Hst Hfl Hlen H) as (p & Hp & Hs).
  inversion Hp; subst; try congruence.
  match goal with H : items_of _ _ = Some _ |- _ => rewrite Hty in H; injection H as <- end.
  match goal with H : Forall2 _ [] _ |- _ => inversion H; subst end. exact Hs.
Qed.

Theorem some_out : forall x E id td fs1 f fs2 o vs1 w vs2 l b,
  struct_type E id td (fs1 ++ f :: fs2) -> ya_flatten (t_attrs td) = false -> List.length vs1 = List.length fs1 ->
  plain_element f -> f_ty f = TOpt b -> base_has_element E b ->
  ~ suppressed x (VRec (vs1 ++ VOpt (Some w) :: vs2)) f (VOpt (Some w)) ->
  Written x E id o (VRec (vs1 ++ VOpt (Some w) :: vs2)) l ->
  exists part,
    Surrounded x E (t_attrs td) (VRec (vs1 ++ VOpt (Some w) :: vs2)) fs1 vs1 part fs2 vs2 l /\
    one_element (qname (field_qname (t_attrs td) f)) part /\
    ItemOut x E false (field_qname (t_attrs td) f) b w part.
Proof.
  intros x E id td fs1 f fs2 o vs1 w vs2 l b Hst Hfl Hlen (Hpa & Hpt & Hpc & Hpf) Hty Hb Hns H.
  destruct (one_field_out _ _ _ _ _ _ _ _ _ _ _ _ Hst Hfl Hlen H) as (p & Hp & Hs).
  inversion Hp; subst; try congruence; try contradiction.
  match goal with H : items_of _ _ = Some _ |- _ => rewrite Hty in H; injection H as <- end.
  match goal with H : Forall2 _ [w] parts |- _ => rewrite Hpf, Hty in H; inversion H as [|? ? ? ? Hi Hr]; subst; inversion Hr; subst end.
  cbn [concat] in Hs. rewrite app_nil_r in Hs. eexists. split; [exact Hs|]. split; [eapply item_one; eassumption|exact Hi].
Qed.

Theorem suppressed_out : forall x E id td fs1 f fs2 o vs1 v vs2 l,
  struct_type E id td (fs1 ++ f :: fs2) -> ya_flatten (t_attrs td) = false -> List.length vs1 = List.length fs1 ->
  ya_attribute (f_attrs f) = false -> ya_text (f_attrs f) = false ->
  suppressed x (VRec (vs1 ++ v :: vs2)) f v ->
  Written x E id o (VRec (vs1 ++ v :: vs2)) l ->
  Surrounded x E (t_attrs td) (VRec (vs1 ++ v :: vs2)) fs1 vs1 [] fs2 vs2 l.
Proof.
  intros x E id td fs1 f fs2 o vs1 v vs2 l Hst Hfl Hlen Hpa Hpt Hsu H.
  destruct (one_field_out _ _ _ _ _ _ _ _ _ _ _ _ Hst Hfl Hlen H) as (p & Hp & Hs).
  inversion Hp; subst; try congruence; try contradiction.
Qed.

Theorem attr_suppressed_out : forall x E id td fs1 f fs2 o vs1 v vs2 n a m body,
  struct_type E id td (fs1 ++ f :: fs2) -> flattens (fs1 ++ f :: fs2) = false ->
  ya_flatten (t_attrs td) = false -> List.length vs1 = List.length fs1 ->
  ya_attribute (f_attrs f) = true -> unneeded x (VRec (vs1 ++ v :: vs2)) f v ->
  Written x E id o (VRec (vs1 ++ v :: vs2)) (WStart n a m :: body) ->
  exists a1 a2, a = concat a1 ++ concat a2 /\
    Forall3 (AttrOut x E (t_attrs td) (VRec (vs1 ++ v :: vs2))) fs1 vs1 a1 /\
    Forall3 (AttrOut x E (t_attrs td) (VRec (vs1 ++ v :: vs2))) fs2 vs2 a2.
Proof.
  intros x E id td fs1 f fs2 o vs1 v vs2 n a m body Hst Hff Hfl Hlen Ha Hu H.
  destruct (struct_out _ _ _ _ _ _ _ _ Hst Hfl H) as (own & child & m' & parts & aparts & Heq & _ & Hp & -> & Hch).
  rewrite (Hch Hff), app_nil_r in Heq. injection Heq as _ -> _ _.
  apply Forall3_app_inv in Hp; [|exact Hlen]. destruct Hp as (p1 & c & p2 & -> & H1 & H2 & H3).
  exists p1, p2. split; [|split; assumption]. rewrite concat_mid. inversion H2; subst; try congruence; try contradiction; reflexivity.
Qed.

(** ** The contribution of a field is determined by the field *)
Lemma item_function : forall x E fl q b v p p', ItemOut x E fl q b v p -> ItemOut x E fl q b v p' -> p = p'.
Proof.
  intros x E fl q b v p p' H H'. destruct H; inversion H'; subst; try congruence.
  - eapply written_function; eassumption.
  - match goal with H : Content _ _ _ _ _, H' : Content _ _ _ _ _ |- _ => apply content_encode in H, H'; congruence end.
Qed.
Lemma items_function : forall x E fl q b l p p', Forall2 (ItemOut x E fl q b) l p -> Forall2 (ItemOut x E fl q b) l p' -> p = p'.
Proof.
  intros x E fl q b l p p' H. revert p'. induction H; intros p' H'; inversion H'; subst; [reflexivity|].
  f_equal; [eapply item_function; eassumption|auto].
Qed.

Theorem field_function : forall x E ra ra' self self' f v p p',
  ya_default_namespace ra = ya_default_namespace ra' ->
  (forall g, ya_skip_if (f_attrs f) = Some g -> x_skip_if x g self v = x_skip_if x g self' v) ->
  FieldOut x E ra self f v p -> FieldOut x E ra' self' f v p' -> p = p'.
Proof.
  intros x E ra ra' self self' f v p p' Hns Hself H H'.
  assert (Hq : field_qname ra' f = field_qname ra f) by (unfold field_qname; rewrite Hns; reflexivity).
  assert (Hsu : forall v', v' = v -> suppressed x self f v' <-> suppressed x self' f v').
  { intros v' ->. unfold suppressed, unneeded. split; (intros [Hs|[(g & Hg & Hs)|Hs]]; [left; exact Hs|right; left; exists g; split; [exact Hg|]|right; right; exact Hs]);
      [rewrite <- (Hself g Hg)|rewrite (Hself g Hg)]; exact Hs. }
  specialize (Hsu v eq_refl).
  inversion H; subst; inversion H'; subst; try congruence; try tauto.
  f_equal. match goal with H1 : items_of _ _ = Some ?a, H2 : items_of _ _ = Some ?b |- _ => assert (a = b) by congruence; subst end.
  rewrite Hq in *. eapply items_function; eassumption.
Qed.

Theorem same_field_out : forall x E id td fs1 f fs2 o vs1 v vs2 l id' td' fs1' fs2' o' vs1' vs2' l',
  struct_type E id td (fs1 ++ f :: fs2) -> struct_type E id' td' (fs1' ++ f :: fs2') ->
  ya_flatten (t_attrs td) = false -> ya_flatten (t_attrs td') = false ->
  ya_default_namespace (t_attrs td) = ya_default_namespace (t_attrs td') ->
  List.length vs1 = List.length fs1 -> List.length vs1' = List.length fs1' ->
  (forall g, ya_skip_if (f_attrs f) = Some g ->
     x_skip_if x g (VRec (vs1 ++ v :: vs2)) v = x_skip_if x g (VRec (vs1' ++ v :: vs2')) v) ->
  Written x E id o (VRec (vs1 ++ v :: vs2)) l -> Written x E id' o' (VRec (vs1' ++ v :: vs2')) l' ->
  exists p,
    Surrounded x E (t_attrs td) (VRec (vs1 ++ v :: vs2)) fs1 vs1 p fs2 vs2 l /\
    Surrounded x E (t_attrs td') (VRec (vs1' ++ v :: vs2')) fs1' vs1' p fs2' vs2' l'.
Proof.
  intros x E id td fs1 f fs2 o vs1 v vs2 l id' td' fs1' fs2' o' vs1' vs2' l' Hst Hst' Hfl Hfl' Hns Hlen Hlen' Hself H H'.
  destruct (one_field_out _ _ _ _ _ _ _ _ _ _ _ _ Hst Hfl Hlen H) as (p & Hp & Hs).
  destruct (one_field_out _ _ _ _ _ _ _ _ _ _ _ _ Hst' Hfl' Hlen' H') as (p' & Hp' & Hs').
  assert (p = p') by (eapply field_function; eassumption). subst p'. exists p. split; assumption.
Qed.

Theorem state_independent : forall x E id v w w' w1,
  w_skip w = w_skip w' -> (w_skip w = false -> w_name w = w_name w') ->
  ser x E id v (fun _ => false) w = (SOk tt, w1) ->
  exists l w1', w_evs w1 = w_evs w ++ l /\
    ser x E id v (fun _ => false) w' = (SOk tt, w1') /\ w_evs w1' = w_evs w' ++ l.
Proof.
  intros x E id v w w' w1 Hsk Hnm H.
  assert (Hh : how_of w = how_of w').
  { unfold how_of. rewrite <- Hsk. destruct (w_skip w); [reflexivity|]. rewrite Hnm; reflexivity. }
  pose proof (ser_agrees x E never (covers_never E) id v (how_of w)) as Ha.
  pose proof (Ha w eq_refl) as H1. pose proof (Ha w' (eq_sym Hh)) as H2. clear Ha.
  destruct (encode x E id v (how_of w)) as [ts|]; cbn [omap] in *.
  - exists (flat_map wtree ts).
    destruct (writes_forest ts w) as (u & U1 & _ & U3). destruct (writes_forest ts w') as (u' & U1' & _ & U3').
    rewrite U1 in H1. rewrite U1' in H2. change (fun _ : nat => false) with never in *. rewrite H in H1.
    destruct H1 as [Hc _]. unfold core in Hc. cbn in Hc. injection Hc as Hc _ _.
    destruct (ser x E id v never w') as [[[]|m|] w2]; destruct H2 as [Hc2 Hr]; cbn in Hc2, Hr; try tauto.
    exists w2. unfold core in Hc2. injection Hc2 as Hc2 _ _. split; [congruence|]. split; [reflexivity|]. congruence.
  - change (fun _ : nat => false) with never in *. rewrite H in H1. exfalso. apply H1. reflexivity.
Qed.
