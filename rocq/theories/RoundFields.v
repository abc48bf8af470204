(** * Round trip of one struct field (used by RoundProofs.v). *)
From Verif Require Import Str Num Xml XmlText Reader Schema De SpecTree SpecText SpecNum SpecTyped SpecStruct SpecSer SpecValue
  SpecEnc SpecRound TreeFacts TreeProofs TextProofs ValueProofs StructProofs StructReads EncProofs SerProofs RoundNames RoundTexts RoundCore.
Open Scope list_scope.

(** ** Elements holding one text *)
Lemma text_element : forall E st q l k t, consistent E -> within (bindings E) st -> means (bindings E) st q l ->
  (k = WTxt t \/ k = WCd t) -> Writable ([] :: st) k ->
  Writable st (WElem (qname q) [] [] [k]) /\
  exists n m, reread st (WElem (qname q) [] [] [k]) = Elem n [] m (text_node t) /\ elabel n = l /\ n_ns n <> Some "".
Proof.
  intros E st q l k t [Hf Hd] Hw Hm Hk Hwr.
  assert (Hw' : within (bindings E) ([] :: st)) by (intros m p u [<-|Hin] Hi; [destruct Hi|apply (Hw m); assumption]).
  pose proof (means_extend (bindings E) Hf [] st q l Hw' Hm) as Hm'.
  destruct (means_label (bindings E) ([] :: st) q l Hw' Hm') as (H1 & H2 & H3 & _).
  change (declare st []) with (@nil (string * string)) in *. split.
  - apply w_elem; [apply Hm|exact H2|intros ? []|constructor|intros ? []|].
    intros j [<-|[]]. exact Hwr.
  - exists (rname ([] :: st) (qname q)), (squash ([] :: st)). rewrite reread_elem. split; [|split; [exact H1|exact H3]].
    destruct Hk as [-> | ->]; reflexivity.
Qed.

Lemma variant_for_first : forall vs i vr, first_variant vs i vr -> variant_for vs (variant_name vr) = Some (i, v_body vr).
Proof.
  intros vs i vr (Hi & Hr & Ho). unfold variant_for.
  rewrite (find_numbered_first _ _ vs i vr Hi); [reflexivity| |].
  - cbn [snd]. destruct (v_body vr) eqn:Hb; try apply String.eqb_refl. exfalso. apply (Hr fs). exact Hb.
  - intros j w Hj Hw. cbn [snd]. destruct (v_body w) eqn:Hb; [| |reflexivity]; apply String.eqb_neq; apply (Ho j w Hj Hw); intros fs; congruence.
Qed.
Lemma variant_for_none : forall vs s, (forall v, In v vs -> readable v -> variant_name v <> s) -> variant_for vs s = None.
Proof.
  intros vs s H. unfold variant_for. destruct (find _ (numbered vs)) as [[i v]|] eqn:Hf; [|reflexivity].
  apply find_some in Hf. destruct Hf as [Hin Hp]. apply numbered_in in Hin. apply nth_error_In in Hin. cbn [snd] in Hp.
  exfalso. destruct (v_body v) eqn:Hb; try discriminate; apply String.eqb_eq in Hp; apply (H v Hin); try exact Hp; intros fs; congruence.
Qed.
Lemma bare_name : forall ra vr, bare_variant ra vr -> variant_qname ra vr = variant_name vr.
Proof.
  intros ra vr H. unfold variant_qname, prefix_part. destruct H as [-> | ->].
  - destruct (opt_eqb (ya_default_namespace ra) None); reflexivity.
  - rewrite (proj2 (opt_eqb_eq _ _) eq_refl). reflexivity.
Qed.

Lemma chars_text : forall t, emit_text (EConf false None) [WChars t] = esc_pcdata t.
Proof.
  intros t. unfold emit_text, emit_from. cbn [emit1 em0 em_just fst ec_decl].
  cbn [String.append]. rewrite sapp_nil. reflexivity.
Qed.
Lemma legal_esc : forall t, legal_attr t = true -> legal_attr (esc_pcdata t) = true.
Proof.
  induction t as [|c t IH]; intros H; [reflexivity|].
  assert (Hc : legal_attr (String c "") = true /\ legal_attr t = true).
  { unfold legal_attr, legal in *. cbn [all_chars] in *. rewrite !andb_true_iff in *. destruct H as [[? ?] [? ?]]. repeat split; assumption. }
  destruct Hc as [Hc Ht]. specialize (IH Ht). cbn [esc_pcdata].
  unfold legal_attr, legal in *. rewrite !andb_true_iff in *. rewrite !all_chars_app. rewrite !andb_true_iff.
  destruct IH as [H1 H2]. repeat split; try assumption; unfold esc_pcdata_char;
    repeat (match goal with |- context [if ?b then _ else _] => destruct b end); try reflexivity; apply Hc.
Qed.

Section Field.
  Variable x : ext.
  Variable E : env.
  Notation av := (attr_value_at x E 1).
  Notation fv := (flat_value_at x E 1).
  Notation af := (attr_fine_at x E 1).
  Notation ff := (flat_fine_at x E 1).
  Notation Dec := (decode x E av fv false).
  Notation FitsE := (Fits x E af ff).
  Notation KidFitsE := (KidFits x E af ff).

  (** ** Attribute values *)
  Lemma attr_user_value : forall id v t, AttrSurvives x E (BUser id) v ->
    attr_show x (encode x E) (BUser id) v = Some t ->
    legal_attr t = true /\ attr_item x av (BUser id) t = OOk v /\ af id t.
  Proof.
    intros id v t H Hs. cbn [attr_show] in Hs. apply omap_some in Hs. destruct Hs as (ts & He & ->).
    rewrite encode_eq in He. unfold enc_type in He. cbn [attr_item]. unfold attr_value_at, attr_fine_at.
    inversion H as [|? td vs d i vr Htd Hb Hid Htag Hv Hu Hbare Ht Hn|? td k w Htd Hb Hid Hp]; subst; rewrite Htd, Hb in *.
    - unfold enc_content in He. rewrite Hb in He. rewrite (proj1 Hv) in He. unfold enc_variant in He. rewrite Hu, Htag in He.
      injection He as <-. cbn [flat_map wtree app]. rewrite (bare_name _ _ Hbare).
      destruct Ht as (Hc & Hl). rewrite chars_text, unesc_pcdata.
      split; [exact (legal_esc _ Hl)|]. split.
      + unfold wrapped. rewrite (clean_node _ Hc). cbn [value_of decode]. rewrite Htd, Hb, Htag. unfold bad_namespace. cbn [n_ns].
        unfold text_variant. rewrite (variant_for_first _ _ _ Hv), Hu. reflexivity.
      + exists td, (variant_name vr). split; [reflexivity|]. split; [exact Hid|]. split; [reflexivity|]. split; [apply Hc|].
        unfold wrapped. rewrite (clean_node _ Hc). cbn [Conforms].
        eapply fits_unit; [exact Htd|exact Hb|exact Htag| |].
        * apply variant_for_none. exact Hn.
        * rewrite (variant_for_first _ _ _ Hv), Hu. intros (? & ? & ? & ? & Hx & _). discriminate.
    - apply omap_some in He. destruct He as (s & Hs & ->). cbn [flat_map wtree app].
      destruct (prim_text x attr_text _ _ _ _ (fun u h => h) Hp Hs) as [Ht Hparse].
      assert (Hpl : legal s = true /\ legal_attr s = true /\ (text_node s = [Txt s] \/ text_node s = [] /\ s = "")).
      { destruct Ht as [(Hc & Hl)| ->]; [|repeat split; auto].
        split; [apply Hc|]. split; [exact Hl|]. left. apply clean_node. exact Hc. }
      destruct Hpl as (Hpl & Hl & Hn). rewrite chars_text, unesc_pcdata. split; [exact (legal_esc _ Hl)|]. split.
      + unfold wrapped. cbn [value_of decode]. rewrite Htd, Hb.
        replace (match text_node s with [Txt u] => u | _ => "" end) with s; [rewrite Hparse; reflexivity|].
        destruct Hn as [->|[-> ->]]; reflexivity.
      + exists td, s. split; [reflexivity|]. split; [exact Hid|]. split; [reflexivity|]. split; [exact Hpl|]. cbn [Conforms]. unfold wrapped.
        eapply fits_prim; [exact Htd|exact Hb|]. destruct Hn as [->|[-> _]]; eauto.
  Qed.

  Lemma attr_value_read : forall b v t, AttrSurvives x E b v -> attr_show x (encode x E) b v = Some t ->
    legal_attr t = true /\ attr_item x av b t = OOk v /\ (forall id, b = BUser id -> af id t).
  Proof.
    intros b v t H Hs. destruct b as [s|id].
    - inversion H as [? ? Hl| |]; subst. cbn [attr_show] in Hs.
      destruct (leaf_text x (fun t => legal_attr t = true) s v t (fun u h => proj2 h) Hl Hs) as (H1 & _ & H3).
      split; [exact H1|]. split; [cbn [attr_item]; rewrite H3; reflexivity|discriminate].
    - destruct (attr_user_value id v t H Hs) as (H1 & H2 & H3). split; [exact H1|]. split; [exact H2|].
      intros id' Hid. injection Hid as <-. exact H3.
  Qed.

  (** ** Fields *)
  Variable N : nat.
  Definition under_works (w : value) : Prop := forall id q p l st, Survives x E false id w ->
    encode x E id w (Under (Some q)) = Some p -> within (bindings E) st -> means (bindings E) st q l -> accepts E id l ->
    exists a m c, p = [WElem (qname q) a m c] /\ Writable st (WElem (qname q) a m c) /\
      elabel (rname (declare st m :: st) (qname q)) = l /\
      FitsE id (reread st (WElem (qname q) a m c)) /\ Dec id (reread st (WElem (qname q) a m c)) = OOk w.
  Hypothesis IHU : forall w, height w < N -> under_works w.

  Hypothesis Hcons : consistent E.
  Variable ra : yattr.
  Variable fs : list field.
  Variable st : nsstack.
  Hypothesis Hra : forall pu, In pu (own_bindings ra) -> In pu (bindings E).
  Hypothesis Hfine : struct_fine E ra fs.
  Hypothesis Hst : within (bindings E) st.
  Hypothesis Hholds : holds st ra.

  Lemma own_label : forall i f n, nth_error fs i = Some f -> ya_attribute (f_attrs f) = false -> elabel n = flabel ra f ->
    field_for ra fs n = Some (i, f).
  Proof.
    intros i f n Hi Ha Hl. destruct Hfine as (_ & Hf & Hd). apply field_for_first; [|exact Hl].
    pose proof (Hf f (nth_error_In _ _ Hi)) as Hff. rewrite Ha in Hff.
    split; [exact Hi|]. split; [split; [exact Ha|apply Hff]|].
    intros j g Hj Hg [Hga Hgf] He. assert (j = i) by (apply (Hd j i g f Hg Hi); left; auto). lia.
  Qed.

  Lemma field_means : forall f, In f fs -> ya_attribute (f_attrs f) = false ->
    means (bindings E) st (field_qname ra f) (flabel ra f) /\ accepts_base E (base_of (f_ty f)) (flabel ra f) /\
    (forall b, f_ty f <> TOptVec b) /\ ya_flatten (f_attrs f) = false.
  Proof.
    intros f Hin Ha. destruct Hfine as (_ & Hf & _). specialize (Hf f Hin). rewrite Ha in Hf.
    destruct Hf as (H1 & H2 & H3 & H4 & H5). split; [|repeat split; assumption].
    apply prefixed_means; assumption.
  Qed.

  (** One value of an element field. *)
  Definition item_out (f : field) (w : value) : option (list wnode) :=
    match base_of (f_ty f) with
    | BSimple s => enc_simple x (field_qname ra f) s w
    | BUser id => encode x E id w (Under (Some (field_qname ra f)))
    end.

  Lemma item_round : forall i f w p, nth_error fs i = Some f -> ya_attribute (f_attrs f) = false ->
    height w < N -> ItemSurvives x E (base_of (f_ty f)) w -> item_out f w = Some p ->
    exists k, p = [k] /\ is_elem k /\ Writable st k /\ KidFitsE ra fs (reread st k) /\
      kid_given x Dec ra fs (reread st k) = OOk [(i, w)].
  Proof.
    intros i f w p Hi Ha Hh Hs Hp. destruct (field_means f (nth_error_In _ _ Hi) Ha) as (Hm & Hacc & _ & _).
    unfold item_out in Hp. destruct (base_of (f_ty f)) as [s|id] eqn:Hb.
    - unfold enc_simple in Hp. apply omap_some in Hp. destruct Hp as (t & Ht & ->).
      inversion Hs as [? ? Hl|]; subst.
      destruct (leaf_text x clean s w t (fun u h => proj1 h) Hl Ht) as (Hc & _ & Hv).
      destruct (text_element E st (field_qname ra f) (flabel ra f) (WTxt t) t Hcons Hst Hm (or_introl eq_refl)) as (Hw & n & m & Hr & Hl1 & Hl2).
      { constructor. apply Hc. }
      unfold text_elem. exists (WElem (qname (field_qname ra f)) [] [] [WTxt t]).
      split; [reflexivity|]. split; [exact I|]. split; [exact Hw|]. rewrite Hr, (clean_node _ Hc).
      pose proof (own_label i f n Hi Ha Hl1) as Hff. split.
      + eapply kid_simple; eauto.
      + cbn [kid_given]. rewrite Hff, Hb. cbn [simple_given]. rewrite Hv. reflexivity.
    - inversion Hs as [|? ? Hsv]; subst. destruct (IHU w Hh id _ p (flabel ra f) st Hsv Hp Hst Hm Hacc) as (a & m & c & -> & Hw & Hl & Hfit & Hd).
      exists (WElem (qname (field_qname ra f)) a m c). split; [reflexivity|]. split; [exact I|]. split; [exact Hw|].
      rewrite reread_elem in *.
      pose proof (own_label i f _ Hi Ha Hl) as Hff. split.
      + eapply kid_user; eauto.
      + cbn [kid_given]. rewrite Hff, Hb, Hd. reflexivity.
  Qed.

  Lemma items_round : forall i f, nth_error fs i = Some f -> ya_attribute (f_attrs f) = false ->
    forall l p, (forall w, In w l -> height w < N) -> (forall w, In w l -> ItemSurvives x E (base_of (f_ty f)) w) ->
    oconcat (item_out f) l = Some p ->
    (forall k, In k p -> is_elem k /\ Writable st k /\ KidFitsE ra fs (reread st k)) /\
    ocollect (kid_given x Dec ra fs) (map (reread st) p) = OOk (map (pair i) l).
  Proof.
    intros i f Hi Ha. induction l as [|w l IH]; intros p Hh Hs Hp; cbn [oconcat] in Hp.
    - injection Hp as <-. split; [intros ? []|reflexivity].
    - apply oapp_some in Hp. destruct Hp as (u & r & Hu & Hr & ->).
      destruct (item_round i f w u Hi Ha (Hh w (or_introl eq_refl)) (Hs w (or_introl eq_refl)) Hu) as (k & -> & H1 & H2 & H3 & H4).
      destruct (IH r) as [H5 H6]; [intros; apply Hh; right; assumption|intros; apply Hs; right; assumption|exact Hr|].
      split; [intros j [<-|Hj]; [auto|apply H5; exact Hj]|].
      cbn [app map]. rewrite ocollect_cons, H4, H6. reflexivity.
  Qed.

  (** What one field contributes to the content. *)
  Inductive FieldPart (i : nat) (f : field) : list wnode -> list value -> Prop :=
  | fp_elems : forall p it,
      (forall k, In k p -> is_elem k /\ Writable st k /\ KidFitsE ra fs (reread st k)) ->
      ocollect (kid_given x Dec ra fs) (map (reread st) p) = OOk (map (pair i) it) -> FieldPart i f p it
  | fp_text : forall t, ya_text (f_attrs f) = true -> clean t ->
      (f_ty f = TBase (BSimple SString) \/ f_ty f = TOpt (BSimple SString)) -> FieldPart i f [WTxt t] [VStr t]
  | fp_no_text : ya_text (f_attrs f) = true -> FieldPart i f [WTxt ""] [].

  Variable tn : string.
  Lemma missing_result : forall f v, missing_value x f = Some v -> field_result x tn f [] = Ok v.
  Proof. intros f v H. rewrite field_result_missing, H. reflexivity. Qed.

  Lemma items_result : forall f v l, (forall b, f_ty f <> TOptVec b) -> items_of (f_ty f) v = Some l ->
    field_result x tn f l = Ok v.
  Proof.
    intros f v l Hn H. unfold field_result. destruct (f_ty f) as [b|b|b|b]; cbn [items_of] in H.
    - injection H as <-. reflexivity.
    - destruct v as [| | | | |[w|]| | |]; try discriminate; injection H as <-; reflexivity.
    - destruct v; try discriminate. injection H as <-. reflexivity.
    - exfalso. apply (Hn b). reflexivity.
  Qed.

  Lemma items_below : forall t v l w, items_of t v = Some l -> In w l -> height w <= height v.
  Proof.
    intros t v l w H Hin. destruct t; cbn [items_of] in H.
    - injection H as <-. destruct Hin as [<-|[]]. lia.
    - destruct v as [| | | | |[u|]| | |]; try discriminate; injection H as <-; [destruct Hin as [<-|[]]; cbn; lia|destruct Hin].
    - destruct v; try discriminate. injection H as <-. apply height_in in Hin. cbn; lia.
    - destruct v as [| | | | |[[]|]| | |]; try discriminate; injection H as <-; [|destruct Hin]. apply height_in in Hin. cbn; lia.
  Qed.

  Lemma enc_items : forall self f v p l, ya_attribute (f_attrs f) = false -> ya_text (f_attrs f) = false ->
    ya_flatten (f_attrs f) = false -> left_out x self v f true = false -> ya_cdata (f_attrs f) = false ->
    (forall b, f_ty f <> TOptVec b) -> items_of (f_ty f) v = Some l ->
    enc_field x (encode x E) ra self f v = Some p -> oconcat (item_out f) l = Some p.
  Proof.
    intros self f v p l Ha Ht Hf Hl Hc Hn Hi Hp. unfold enc_field in Hp. rewrite Ha, Ht, Hl, Hc, Hf in Hp.
    unfold item_out. destruct (f_ty f) as [[s|id]|[s|id]|[s|id]|b] eqn:Hty; cbn [items_of base_of] in *.
    - injection Hi as <-. cbn [oconcat]. rewrite Hp. cbn [oapp]. rewrite app_nil_r. reflexivity.
    - injection Hi as <-. cbn [oconcat]. rewrite Hp. cbn [oapp]. rewrite app_nil_r. reflexivity.
    - destruct v as [| | | | |[w|]| | |]; try discriminate; injection Hi as <-; cbn [oconcat]; rewrite Hp; [|reflexivity].
      cbn [oapp]. rewrite app_nil_r. reflexivity.
    - destruct v as [| | | | |[w|]| | |]; try discriminate; injection Hi as <-; cbn [oconcat]; rewrite Hp; [|reflexivity].
      cbn [oapp]. rewrite app_nil_r. reflexivity.
    - destruct v; try discriminate. injection Hi as <-. exact Hp.
    - destruct v; try discriminate. injection Hi as <-. exact Hp.
    - exfalso. apply (Hn b). reflexivity.
  Qed.

  Lemma field_round : forall b self i f v p, nth_error fs i = Some f -> ya_attribute (f_attrs f) = false ->
    height v < N -> FieldSurvives x E b self f v -> enc_field x (encode x E) ra self f v = Some p ->
    exists it, FieldPart i f p it /\ field_result x tn f it = Ok v.
  Proof.
    intros b self i f v p Hi Ha Hh Hs Hp.
    destruct (field_means f (nth_error_In _ _ Hi) Ha) as (Hm & Hacc & Hov & Hfl).
    assert (Hitems : forall l, ya_text (f_attrs f) = false -> ya_cdata (f_attrs f) = false ->
      left_out x self v f true = false -> items_of (f_ty f) v = Some l ->
      (forall w, In w l -> ItemSurvives x E (base_of (f_ty f)) w) ->
      exists it, FieldPart i f p it /\ field_result x tn f it = Ok v).
    { intros l Ht Hc Hl Hit Hs'. pose proof (enc_items self f v p l Ha Ht Hfl Hl Hc Hov Hit Hp) as Ho.
      destruct (items_round i f Hi Ha l p) as [H1 H2]; [|exact Hs'|exact Ho|].
      - intros w Hw. pose proof (items_below _ _ _ _ Hit Hw). lia.
      - exists l. split; [apply fp_elems; assumption|apply items_result; assumption]. }
    assert (Hnone : forall l, p = [] -> missing_value x f = Some l -> exists it, FieldPart i f p it /\ field_result x tn f it = Ok l).
    { intros l -> Hv. exists []. split; [apply fp_elems; [intros ? []|reflexivity]|apply missing_result; exact Hv]. }
    pose proof Hp as Hp0. unfold enc_field in Hp. rewrite Ha in Hp.
    destruct Hs as [b self f t Hty|b self f t Hty|self f v Ha' Hv|b self f v Ha' Hu Hv|b self f v _ Ht Hsup Hv
      |self f v t w Ha' _ _ _|b self f v t _ Ht Hty Hc|b self f t _ Ht Hns Hcd Hty Hc Hcl|b self f v l _ Ht Hns Hcd Hit Hl];
      try congruence.
    - destruct (ya_text (f_attrs f)) eqn:Ht.
      { rewrite Hty in Hp. destruct t as [[]|]; try discriminate. injection Hp as <-.
        exists []. split; [apply fp_no_text; exact Ht|]. unfold field_result. rewrite Hty. reflexivity. }
      destruct (left_out x self (VOpt None) f true) eqn:Hl.
      { injection Hp as <-. apply Hnone; [reflexivity|]. unfold missing_value. rewrite Hty. reflexivity. }
      destruct (ya_cdata (f_attrs f)) eqn:Hcd; [rewrite Hty in Hp; discriminate|].
      apply (Hitems []); auto; [rewrite Hty; reflexivity|intros ? []].
    - destruct (ya_text (f_attrs f)) eqn:Ht; [rewrite Hty in Hp; discriminate|].
      destruct (left_out x self (VVec []) f true) eqn:Hl.
      { injection Hp as <-. apply Hnone; [reflexivity|]. unfold missing_value. rewrite Hty. reflexivity. }
      destruct (ya_cdata (f_attrs f)) eqn:Hcd; [rewrite Hty in Hp; discriminate|].
      apply (Hitems []); auto; [rewrite Hty; reflexivity|intros ? []].
    - rewrite Ht in Hp. rewrite (proj2 (left_out_suppressed x self v f) Hsup) in Hp. injection Hp as <-.
      apply Hnone; [reflexivity|exact Hv].
    - rewrite Ht in Hp. exists [VStr t].
      destruct Hty as [[Hty ->]|[Hty ->]]; rewrite Hty in Hp; injection Hp as <-;
        (split; [apply fp_text; auto|unfold field_result; rewrite Hty; reflexivity]).
    - assert (Hl : left_out x self (VStr t) f true = false).
      { destruct (left_out x self (VStr t) f true) eqn:Hl; [|reflexivity]. apply left_out_suppressed in Hl. tauto. }
      rewrite Ht, Hl, Hcd, Hty in Hp. injection Hp as <-.
      destruct (text_element E st (field_qname ra f) (flabel ra f) (WCd t) t Hcons Hst Hm (or_intror eq_refl)) as (Hw & n & m & Hr & Hl1 & Hl2).
      { apply w_cd; [apply Hc|exact Hcl]. }
      pose proof (own_label i f n Hi Ha Hl1) as Hff.
      exists [VStr t]. split; [|unfold field_result; rewrite Hty; reflexivity]. apply fp_elems.
      + intros k [<-|[]]. split; [exact I|]. split; [exact Hw|]. rewrite Hr, (clean_node _ Hc).
        eapply kid_simple; [exact Hff|rewrite Hty; reflexivity|exact Hl2|eauto].
      + cbn [map]. rewrite Hr, (clean_node _ Hc), ocollect_cons. cbn [kid_given]. rewrite Hff, Hty. reflexivity.
    - assert (Hl' : left_out x self v f true = false).
      { destruct (left_out x self v f true) eqn:Hlo; [|reflexivity]. apply left_out_suppressed in Hlo. tauto. }
      apply (Hitems l); assumption.
  Qed.

  (** All fields: the content of the struct's element. *)
  Lemma text_index : forall i f t, nth_error fs i = Some f -> ya_text (f_attrs f) = true ->
    (f_ty f = TBase (BSimple SString) \/ f_ty f = TOpt (BSimple SString)) ->
    kid_given x Dec ra fs (Txt t) = OOk [(i, VStr t)].
  Proof.
    intros i f t Hi Ht Hty. cbn [kid_given]. unfold text_fields.
    assert (H : forall l j, (forall n g, nth_error l n = Some g -> nth_error fs (j + n) = Some g) -> j <= i < j + List.length l ->
      map (fun k => (k, VStr t)) (map fst (filter (fun p => (ya_text (f_attrs (snd p)) &&
        match f_ty (snd p) with TBase (BSimple SString) | TOpt (BSimple SString) => true | _ => false end)%bool)
        (combine (seq j (List.length l)) l))) = [(i, VStr t)]).
    { assert (Hno : forall l j, (forall n g, nth_error l n = Some g -> nth_error fs (j + n) = Some g) -> i < j ->
        filter (fun p => (ya_text (f_attrs (snd p)) &&
        match f_ty (snd p) with TBase (BSimple SString) | TOpt (BSimple SString) => true | _ => false end)%bool)
        (combine (seq j (List.length l)) l) = []).
      { induction l as [|g l IH]; intros j Hl Hj; [reflexivity|]. rewrite combine_seq_cons. cbn [filter snd].
        destruct (ya_text (f_attrs g)) eqn:Hg.
        - exfalso. pose proof (Hl 0 g eq_refl) as H0. destruct Hfine as (_ & _ & Hd).
          assert (j + 0 = i) by (apply (Hd (j + 0) i g f H0 Hi); auto). lia.
        - cbn [andb]. apply IH; [|lia]. intros n h Hn. rewrite Nat.add_succ_comm. apply Hl. exact Hn. }
      induction l as [|g l IH]; intros j Hl Hj; [cbn in Hj; lia|]. rewrite combine_seq_cons. cbn [filter snd].
      pose proof (Hl 0 g eq_refl) as H0. rewrite Nat.add_0_r in H0.
      assert (Hl' : forall n h, nth_error l n = Some h -> nth_error fs (S j + n) = Some h)
        by (intros n h Hn; rewrite Nat.add_succ_comm; apply Hl; exact Hn).
      destruct (Nat.eq_dec j i) as [->|Hji].
      - assert (g = f) by congruence. subst g. rewrite Ht.
        replace (match f_ty f with TBase (BSimple SString) | TOpt (BSimple SString) => true | _ => false end) with true
          by (destruct Hty as [-> | ->]; reflexivity).
        cbn [andb map fst]. rewrite Hno; [reflexivity|exact Hl'|lia].
      - destruct (ya_text (f_attrs g)) eqn:Hg.
        + exfalso. destruct Hfine as (_ & _ & Hd). apply Hji. apply (Hd j i g f H0 Hi); auto.
        + cbn [andb]. apply IH; [exact Hl'|]. cbn [List.length] in Hj. lia. }
    f_equal. apply (H fs 0); [auto|]. assert (i < List.length fs) by (apply nth_error_Some; congruence). lia.
  Qed.

  Lemma fields_round : forall b self fs' vs' i ks,
    (forall j f, nth_error fs' j = Some f -> nth_error fs (i + j) = Some f) ->
    (forall v, In v vs' -> height v < N) ->
    FieldsSurvive x E b self fs' vs' -> enc_fields x (encode x E) ra self fs' vs' = Some ks ->
    exists its, List.length its = List.length fs' /\
      (forall k, In k ks -> Writable st k) /\
      (forall k, In k (reread_kids st ks "") -> KidFitsE ra fs k) /\
      ocollect (kid_given x Dec ra fs) (reread_kids st ks "") = OOk (contrib (fun f => negb (ya_attribute (f_attrs f))) i fs' its) /\
      ((forall f, In f fs' -> ya_attribute (f_attrs f) = false -> ya_text (f_attrs f) = false) -> forall k, In k ks -> is_elem k) /\
      (forall j f it v, nth_error fs' j = Some f -> nth_error its j = Some it -> nth_error vs' j = Some v ->
         ya_attribute (f_attrs f) = false -> field_result x tn f it = Ok v).
  Proof.
    intros b self fs' vs' i ks Hpos Hh Hs. revert i ks Hpos Hh.
    induction Hs as [b self|b self f fs' v vs' Hf Hs IH]; intros i ks Hpos Hh He; cbn [enc_fields] in He.
    - injection He as <-. exists []. split; [reflexivity|]. split; [intros ? []|]. split; [intros ? []|]. split; [reflexivity|].
      split; [intros _ ? []|]. intros [|j] ? ? ? Hj; discriminate.
    - apply oapp_some in He. destruct He as (p & r & Hp & Hr & ->).
      destruct (IH (S i) r) as (its & H1 & H2 & H3 & H4 & H5 & H6).
      { intros j g Hj. rewrite Nat.add_succ_comm. apply Hpos. exact Hj. }
      { intros; apply Hh; right; assumption. } { exact Hr. }
      pose proof (Hpos 0 f eq_refl) as H0. rewrite Nat.add_0_r in H0.
      destruct (ya_attribute (f_attrs f)) eqn:Ha.
      { unfold enc_field in Hp. rewrite Ha in Hp. injection Hp as <-. cbn [app]. exists ([] :: its).
        split; [cbn; congruence|]. split; [exact H2|]. split; [exact H3|]. split; [cbn [contrib]; rewrite Ha; exact H4|]. split.
        - intros Hx. apply H5. intros g Hg. apply Hx. right. exact Hg.
        - intros [|j] g it w A B C D; cbn [nth_error] in *; [congruence|]. apply (H6 j); assumption. }
      destruct (field_round b self i f v p H0 Ha (Hh v (or_introl eq_refl)) Hf Hp) as (it & Hpart & Hres).
      exists (it :: its). split; [cbn; congruence|].
      assert (H6' : forall j g it' w, nth_error (f :: fs') j = Some g -> nth_error (it :: its) j = Some it' ->
         nth_error (v :: vs') j = Some w -> ya_attribute (f_attrs g) = false -> field_result x tn g it' = Ok w).
      { intros [|j] g it' w A B C D; cbn [nth_error] in *; [congruence|]. apply (H6 j); assumption. }
      cbn [contrib]. rewrite Ha. cbn [negb].
      assert (Hrest : ya_text (f_attrs f) = true -> forall k, In k r -> is_elem k).
      { intros Ht. apply H5. intros g Hg _. destruct (ya_text (f_attrs g)) eqn:Hgt; [|reflexivity]. exfalso.
        apply In_nth_error in Hg. destruct Hg as [j Hj]. pose proof (Hpos (S j) g Hj) as Hj'.
        destruct Hfine as (_ & _ & Hd). assert (i = i + S j) by (apply (Hd i (i + S j) f g H0 Hj'); auto). lia. }
      destruct Hpart as [p it Hk Ho|t Ht Hc Hty|Ht].
      + rewrite reread_kids_elems by (intros k Hin; apply Hk; exact Hin).
        split; [intros k Hin; apply in_app_or in Hin; destruct Hin as [Hin|Hin]; [apply Hk; exact Hin|apply H2; exact Hin]|].
        split.
        { intros k Hin. apply in_app_or in Hin. destruct Hin as [Hin|Hin]; [|apply H3; exact Hin].
          apply in_map_iff in Hin. destruct Hin as (w & <- & Hin). apply Hk. exact Hin. }
        split; [rewrite ocollect_app, Ho, H4; reflexivity|].
        split; [|exact H6']. intros Hx k Hin. apply in_app_or in Hin. destruct Hin as [Hin|Hin]; [apply Hk; exact Hin|].
        apply H5; [|exact Hin]. intros g Hg. apply Hx. right. exact Hg.
      + specialize (Hrest Ht). cbn [app reread_kids String.append].
        rewrite (reread_kids_buf st r t Hrest), (clean_node _ Hc).
        rewrite (reread_kids_all st r Hrest) in H3, H4.
        split; [intros k [<-|Hin]; [constructor; apply Hc|apply H2; exact Hin]|].
        split; [intros k [<-|Hin]; [constructor; apply clean_nonempty; exact Hc|apply H3; exact Hin]|].
        split; [|split; [|exact H6']].
        * cbn [app]. rewrite ocollect_cons, (text_index i f t H0 Ht Hty), H4. reflexivity.
        * intros Hx. exfalso. rewrite (Hx f (or_introl eq_refl) Ha) in Ht. discriminate.
      + specialize (Hrest Ht). cbn [app reread_kids String.append].
        split; [intros k [<-|Hin]; [constructor; reflexivity|apply H2; exact Hin]|].
        split; [exact H3|]. split; [exact H4|]. split; [|exact H6'].
        intros Hx. exfalso. rewrite (Hx f (or_introl eq_refl) Ha) in Ht. discriminate.
  Qed.
End Field.
