(** * Round trip of the fields of a struct that are not flattened, next to
      flattened ones. *)
From Verif Require Import Str Num Xml XmlText Reader Schema De SpecTree SpecText SpecNum SpecTyped SpecStruct SpecSer SpecValue
  SpecEnc SpecRound SpecRoundFlat TreeFacts TreeProofs TextProofs ValueProofs StructProofs StructReads EncProofs SerProofs
  RoundNames RoundTexts RoundCore RoundFields RoundProofs SpecAlike InsertProofs AlikeTrees RewriteProofs RoundFlatCtx RoundFlatFields
  RoundFlatElem.
Open Scope list_scope.

Lemma lasts_known : forall x E b id v, Lasts x E b id v -> exists td, nth_error E id = Some td.
Proof. intros x E b id v H. destruct H as [b id td fs vs [H _]|b id td vs d i vr H|id td vs d tg i vr H|b id td vs d i vr fl t v H|b id td k v H]; eauto. Qed.

Section Own.
  Variable x : ext.
  Variable E : env.
  Hypothesis Hok : all_ok E.
  Notation B := (bindings E).
  Let Hcons : consistent E := proj1 Hok.
  Let Hfun := proj1 Hcons.

  Variable N : nat.
  Hypothesis IH : forall w, height w < N -> content_works x E w.
  Variable L : nat.
  Hypothesis HL : N <= L.
  Notation av := (attr_value_at x E (S L)).
  Notation fv := (flat_value_at x E (S L)).
  Notation af := (attr_fine_at x E (S L)).
  Notation ff := (flat_fine_at x E (S L)).
  Notation Dec := (decode x E av fv false).

  Variable ra : yattr.
  Variable fs : list field.
  Variable st : nsstack.
  Hypothesis Hra : forall pu, In pu (own_bindings ra) -> In pu B.
  Hypothesis Hfine : struct_ok E ra fs.
  Hypothesis Hst : within B st.
  Hypothesis Hholds : holds st ra.
  Variable tn : string.

  (** One written element of field [i] giving [w]. *)
  Definition ItemPart (i : nat) (w : value) (k : wnode) : Prop :=
    is_elem k /\ Neat B st k /\ KidFits x E af ff ra fs (reread st k) /\ is_left ra fs (reread st k) = false /\
    (flattens fs = true -> Tidy x E ra fs (reread st k)) /\
    kid_given x Dec ra fs (reread st k) = OOk [(i, w)].

  Lemma text_item : forall i f s w t k, nth_error fs i = Some f -> elem_field f -> base_of (f_ty f) = BSimple s ->
    clean t -> visit_simple x s t = Ok w -> (k = WTxt t \/ k = WCd t) -> Neat B (declare st [] :: st) k ->
    ItemPart i w (WElem (qname (field_qname ra f)) [] [] [k]).
  Proof.
    intros i f s w t k Hi Hel Hb Hc Hv Hk Hne.
    destruct (field_means' E ra fs st Hcons Hra Hfine Hst Hholds f (nth_error_In _ _ Hi) Hel) as (Hm & _ & _).
    assert (Hst' : within B (declare st [] :: st)) by (intros m p u [<-|Hin] Hin'; [destruct Hin'|apply (Hst m); assumption]).
    pose proof (means_extend B Hfun (declare st []) st _ _ Hst' Hm) as Hm'.
    destruct (means_label B _ _ _ Hst' Hm') as (L1 & L2 & L3 & _).
    assert (Hnt : ntexts [k] <= 1) by (unfold ntexts; destruct Hk as [-> | ->]; cbn; destruct (negb (String.eqb t "")); cbn; lia).
    assert (Hr : reread st (WElem (qname (field_qname ra f)) [] [] [k]) =
      Elem (rname (declare st [] :: st) (qname (field_qname ra f))) [] (squash (declare st [] :: st)) [Txt t]).
    { rewrite reread_elem, reread_few; [|left; reflexivity|exact Hnt]. rewrite empty_node. cbn [map app flat_map]. rewrite app_nil_r.
      replace (rkid (declare st [] :: st) k) with (text_node t) by (destruct Hk as [-> | ->]; reflexivity).
      rewrite (clean_node _ Hc). reflexivity. }
    pose proof (own_label' E ra fs Hfine i f _ Hi Hel L1) as Hff.
    split; [exact I|]. split.
    { apply n_elem; [intros ? []|apply Hm|exact L2| |intros ? []|constructor|exact Hnt|intros j [<-|[]]; exact Hne].
      rewrite L1. symmetry. apply (means_resolve E _ _ _ Hcons Hst' Hm'). }
    rewrite Hr. split; [eapply kid_simple; eauto|]. split; [cbn [is_left]; rewrite Hff; reflexivity|]. split.
    - intros _ j g Hg. rewrite Hff in Hg. injection Hg as <- <-. rewrite Hb. eauto.
    - cbn [kid_given]. rewrite Hff, Hb. cbn [simple_given]. rewrite Hv. reflexivity.
  Qed.

  Lemma item_part : forall i f w p, nth_error fs i = Some f -> elem_field f -> height w < N ->
    (flattens fs = true -> forall id, base_of (f_ty f) = BUser id -> spread E id w) ->
    ItemLasts x E (base_of (f_ty f)) w -> item_out x E ra f w = Some p ->
    exists k, p = [k] /\ ItemPart i w k.
  Proof.
    intros i f w p Hi Hel Hh Hsp Hs Hp. unfold item_out in Hp. destruct (base_of (f_ty f)) as [s|id] eqn:Hb.
    - unfold enc_simple in Hp. apply omap_some in Hp. destruct Hp as (t & Ht & ->). inversion Hs as [? ? Hl|]; subst.
      destruct (leaf_text x clean s w t (fun u h => proj1 h) Hl Ht) as (Hc & _ & Hv).
      eexists. split; [reflexivity|]. apply (text_item i f s w t (WTxt t)); auto. constructor. left. exact Hc.
    - inversion Hs as [|? ? Hsv]; subst.
      destruct (field_means' E ra fs st Hcons Hra Hfine Hst Hholds f (nth_error_In _ _ Hi) Hel) as (Hm & Hacc & _).
      rewrite Hb in Hacc. cbn [takes_base] in Hacc.
      destruct (lasts_known x E false id w Hsv) as [td Htd].
      destruct (under_shape x E Hok _ id w p td Hsv Htd Hp) as (A & M & c & Hsd & Hc & ->). cbn [opt_default].
      assert (Hst' : within B (declare st M :: st)) by (apply declare_within; [exact Hst|apply (start_bound x E false id w A M Hsd)]).
      pose proof (means_extend B Hfun (declare st M) st _ _ Hst' Hm) as Hm'.
      destruct (around x E Hok L w false id c A M st _ _ ltac:(lia) (IH w Hh) Hsv Hc Hsd Hst Hm' Hacc)
        as (Hne & Hre & Hlab & Hns & Hcf & Hva & Hnt).
      eexists. split; [reflexivity|]. pose proof (own_label' E ra fs Hfine i f _ Hi Hel Hlab) as Hff.
      split; [exact I|]. split; [exact Hne|]. rewrite Conforms_Fits in Hcf. specialize (Hva false ltac:(discriminate)).
      rewrite value_of_decode in Hva. rewrite Hre in *. split; [eapply kid_user; eauto|].
      split; [cbn [is_left]; rewrite Hff; reflexivity|]. split.
      + intros Hfl j g Hg. rewrite Hff in Hg. injection Hg as <- <-. rewrite Hb. exists td. split; [exact Htd|].
        specialize (Hsp Hfl id eq_refl). pose proof (Hsp td Htd) as Hsp'. destruct (t_body td) as [gs|vs d|k] eqn:Hbd; [exact I| |destruct Hsp'].
        destruct Hsp' as [-> _]. intros s j Hx. exfalso. apply (Hnt Hsp) in Hx; [exact Hx|]. intros td' gs Htd' Hb'. congruence.
      + cbn [kid_given]. rewrite Hff, Hb, Hva. reflexivity.
  Qed.

  Lemma items_part : forall i f, nth_error fs i = Some f -> elem_field f ->
    forall l p, (forall w, In w l -> height w < N) ->
    (flattens fs = true -> forall id w, base_of (f_ty f) = BUser id -> In w l -> spread E id w) ->
    (forall w, In w l -> ItemLasts x E (base_of (f_ty f)) w) ->
    oconcat (item_out x E ra f) l = Some p -> Forall2 (ItemPart i) l p.
  Proof.
    intros i f Hi Hel. induction l as [|w l IHl]; intros p Hh Hsp Hs Hp; cbn [oconcat] in Hp.
    - injection Hp as <-. constructor.
    - apply oapp_some in Hp. destruct Hp as (u & r & Hu & Hr & ->).
      destruct (item_part i f w u Hi Hel (Hh w (or_introl eq_refl)) (fun h id hb => Hsp h id w hb (or_introl eq_refl)) (Hs w (or_introl eq_refl)) Hu)
        as (k & -> & Hk).
      cbn [app]. constructor; [exact Hk|].
      apply IHl; [exact (fun w h => Hh w (or_intror h))|exact (fun h id w hb hi => Hsp h id w hb (or_intror hi))|exact (fun w h => Hs w (or_intror h))|exact Hr].
  Qed.

  (** What an own field contributes to the content. *)
  Inductive OwnPart (i : nat) (f : field) : list wnode -> list value -> Prop :=
  | op_items : forall p it, Forall2 (ItemPart i) it p -> OwnPart i f p it
  | op_text : forall t, ya_text (f_attrs f) = true -> clean t ->
      (f_ty f = TBase (BSimple SString) \/ f_ty f = TOpt (BSimple SString)) -> OwnPart i f [WTxt t] [VStr t]
  | op_no_text : ya_text (f_attrs f) = true -> OwnPart i f [WTxt ""] [].

  Lemma own_part : forall b self i f v p, nth_error fs i = Some f -> elem_field f -> height v < N ->
    (flattens fs = true -> forall id l w, base_of (f_ty f) = BUser id -> items_of (f_ty f) v = Some l -> In w l ->
       ~ suppressed x self f v -> spread E id w) ->
    FieldLasts x E b self f v -> enc_field x (encode x E) ra self f v = Some p ->
    exists it, OwnPart i f p it /\ field_result x tn f it = Ok v.
  Proof.
    intros b self i f v p Hi Hel Hh Hsp Hs Hp. pose proof Hel as [Ha Hfl].
    destruct (field_means' E ra fs st Hcons Hra Hfine Hst Hholds f (nth_error_In _ _ Hi) Hel) as (Hm & Hacc & Hov).
    assert (Hflat : flat_field f = true -> False) by (unfold flat_field; rewrite Hfl, andb_false_r; discriminate).
    assert (Hitems : forall l, ya_text (f_attrs f) = false -> ya_cdata (f_attrs f) = false ->
      left_out x self v f true = false -> items_of (f_ty f) v = Some l ->
      (forall w, In w l -> ItemLasts x E (base_of (f_ty f)) w) ->
      exists it, OwnPart i f p it /\ field_result x tn f it = Ok v).
    { intros l Ht Hc Hl Hit Hs'. pose proof (enc_items x E ra self f v p l Ha Ht Hfl Hl Hc Hov Hit Hp) as Ho.
      exists l. split; [|apply (items_result x tn); assumption]. apply op_items. apply (items_part i f Hi Hel l p); [| |exact Hs'|exact Ho].
      - intros w Hw. pose proof (items_below _ _ _ _ Hit Hw). lia.
      - intros Hf id w Hb Hw. apply (Hsp Hf id l w Hb Hit Hw). intros Hsup. apply left_out_suppressed in Hsup. congruence. }
    assert (Hnone : forall l, p = [] -> missing_value x f = Some l -> exists it, OwnPart i f p it /\ field_result x tn f it = Ok l).
    { intros l -> Hv. exists []. split; [apply op_items; constructor|apply (missing_result x tn); exact Hv]. }
    pose proof Hp as Hp0. unfold enc_field in Hp. rewrite Ha in Hp.
    destruct Hs as [b self f t Hnf Hty|b self f t Hty|self f v Ha' Hv|b self f v Ha' Hu Hv|b self f v Ha' Ht _ Hsup Hv
      |self f v t w Ha' Hu Hty Hsv|b self f v t Ha' Ht Hty Hc|b self f t Ha' Ht Hns Hcd Hty Hc Hcl|b self f v l Ha' Ht _ Hns Hcd Hit Hl
      |b self f id v Hff|b self f id v Hff|b self f id td gs g t Hff];
      try congruence; try (exfalso; apply Hflat; assumption).
    - destruct (ya_text (f_attrs f)) eqn:Ht.
      { rewrite Hty in Hp. destruct t as [[]|]; try discriminate. injection Hp as <-.
        exists []. split; [apply op_no_text; exact Ht|]. unfold field_result. rewrite Hty. reflexivity. }
      destruct (left_out x self (VOpt None) f true) eqn:Hl.
      { injection Hp as <-. apply Hnone; [reflexivity|]. unfold missing_value. rewrite Hty. reflexivity. }
      destruct (ya_cdata (f_attrs f)) eqn:Hcd; [rewrite Hty in Hp; discriminate|].
      apply (Hitems []); auto; [rewrite Hty; reflexivity|intros ? []].
    - destruct (ya_text (f_attrs f)) eqn:Ht; [rewrite Hty in Hp; discriminate|].
      destruct (left_out x self (VVec []) f true) eqn:Hl.
      { injection Hp as <-. apply Hnone; [reflexivity|]. unfold missing_value. rewrite Hty. reflexivity. }
      destruct (ya_cdata (f_attrs f)) eqn:Hcd; [rewrite Hty in Hp; discriminate|].
      apply (Hitems []); auto; [rewrite Hty; reflexivity|intros ? []].
    - rewrite Ht in Hp. rewrite (proj2 (left_out_suppressed x self v f) Hsup) in Hp. injection Hp as <-.
      apply Hnone; [reflexivity|exact Hv].
    - rewrite Ht in Hp. exists [VStr t].
      destruct Hty as [[Hty ->]|[Hty ->]]; rewrite Hty in Hp; injection Hp as <-;
        (split; [apply op_text; auto|unfold field_result; rewrite Hty; reflexivity]).
    - assert (Hl : left_out x self (VStr t) f true = false).
      { apply bool_false. intros Hl. apply left_out_suppressed in Hl. tauto. }
      rewrite Ht, Hl, Hcd, Hty in Hp. injection Hp as <-.
      exists [VStr t]. split; [|unfold field_result; rewrite Hty; reflexivity]. apply op_items. constructor; [|constructor].
      apply (text_item i f SString (VStr t) t (WCd t)); auto; [rewrite Hty; reflexivity|]. constructor; assumption.
    - assert (Hl' : left_out x self v f true = false).
      { apply bool_false. intros Hlo. apply left_out_suppressed in Hlo. tauto. }
      apply (Hitems l); assumption.
  Qed.
End Own.
