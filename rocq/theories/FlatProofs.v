(** * C34: flattened fields. *)
From Verif Require Import Str Num Xml XmlText Reader Schema De Ser SpecTree TreeFacts TreeProofs SpecText SpecValue ValueProofs
  SpecStruct StructProofs StructReads SpecSer SpecEnc SerProofs RoundNames SpecFlat.
Open Scope list_scope.

(** ** Reading *)
Lemma claimed_field : forall ra fs n a m ks, claimed ra fs (Elem n a m ks) <-> field_for ra fs n <> None.
Proof.
  intros ra fs n a m ks. split.
  - intros (n' & a' & m' & ks' & f & Heq & Hin & [Ha Hf] & Hl) H. injection Heq as <- <- <- <-.
    unfold field_for in H. apply In_nth_error in Hin. destruct Hin as [i Hi].
    assert (Hn : In (i, f) (numbered fs)).
    { clear - Hi. unfold numbered. assert (forall j, In (i + j, f) (combine (seq j (List.length fs)) fs)) as H.
      { revert i Hi. induction fs as [|g fs IH]; intros [|i] Hi j; try discriminate; cbn [List.length seq combine].
        - injection Hi as ->. left. reflexivity.
        - right. replace (S i + j) with (i + S j) by lia. apply IH. exact Hi. }
      specialize (H 0). rewrite Nat.add_0_r in H. exact H. }
    pose proof (find_none _ _ H _ Hn) as Hx. cbn [snd] in Hx. rewrite Ha, Hf in Hx. cbn [negb andb] in Hx.
    assert (label_eqb (flabel ra f) (elabel n) = true) by (apply label_eqb_eq; exact Hl). congruence.
  - intros H. destruct (field_for ra fs n) as [[i f]|] eqn:Hff; [|congruence].
    apply field_for_spec in Hff. destruct Hff as (Hi & Ha & Hf & Hl).
    exists n, a, m, ks, f. repeat split; auto. eapply nth_error_In; exact Hi.
Qed.

Lemma unclaimed_filter : forall ra fs kids r, Unclaimed ra fs kids r -> r = filter (is_left ra fs) kids.
Proof.
  intros ra fs kids r H. induction H as [|k ks r Hc H IH|k ks r Hc H IH]; [reflexivity| |].
  - cbn [filter]. destruct k as [n a m kk|s].
    + apply claimed_field in Hc. cbn [is_left]. destruct (field_for ra fs n); [exact IH|congruence].
    + destruct Hc as (? & ? & ? & ? & ? & Hx & _). discriminate.
  - cbn [filter]. destruct k as [n a m kk|s]; cbn [is_left]; [|congruence].
    destruct (field_for ra fs n) eqn:Hf; [|congruence]. exfalso. apply Hc, claimed_field. congruence.
Qed.

Lemma ocollect_each : forall A B (g : A -> outcome (list B)) l r, ocollect g l = OOk r ->
  exists p, Forall2 (fun a u => g a = OOk u) l p /\ r = concat p.
Proof.
  intros A B g. induction l as [|a l IH]; intros r H; [injection H as <-; exists []; split; [constructor|reflexivity]|].
  cbn [ocollect] in H. apply obind_ok in H. destruct H as (u & Hu & H). apply obind_ok in H. destruct H as (w & Hw & H).
  injection H as <-. destruct (IH w Hw) as (p & Hp & ->). exists (u :: p). split; [constructor; assumption|reflexivity].
Qed.

Section Read.
  Variables (x : ext) (E : env) (av : nat -> string -> outcome value) (fv : nat -> node -> outcome value).

  Lemma flat_index : forall rest i f u p, flat_given fv rest (i, f) = OOk u -> In p u -> fst p = i.
  Proof.
    intros rest i f u p H Hp. unfold flat_given in H. destruct (_ && _)%bool; [|injection H as <-; destruct Hp].
    destruct (f_ty f) as [[|id]|[|id]| |]; try discriminate; destruct (fv id rest); try discriminate; injection H as <-;
      try (destruct Hp as [<-|[]]; reflexivity); destruct Hp.
  Qed.

  Lemma flat_given_nth : forall rest fs cf i f,
    ocollect (flat_given fv rest) (numbered fs) = OOk cf -> nth_error fs i = Some f ->
    exists u, flat_given fv rest (i, f) = OOk u /\ given i cf = map snd u.
  Proof.
    intros rest fs cf i f H Hi. unfold numbered in H.
    assert (Hgen : forall fs j cf, ocollect (flat_given fv rest) (combine (seq j (List.length fs)) fs) = OOk cf ->
      (forall p, In p cf -> j <= fst p) /\
      forall i f, nth_error fs i = Some f -> exists u, flat_given fv rest (j + i, f) = OOk u /\ given (j + i) cf = map snd u).
    { clear. induction fs as [|g fs IH]; intros j cf H.
      - injection H as <-. split; [intros p []|intros [|i] f Hi; discriminate].
      - cbn [List.length seq combine] in H. rewrite ocollect_cons in H. apply obind_ok in H. destruct H as (u & Hu & H).
        apply obind_ok in H. destruct H as (w & Hw & H). injection H as <-. destruct (IH (S j) w Hw) as [Hge Hn]. split.
        + intros p Hp. apply in_app_or in Hp. destruct Hp as [Hp|Hp]; [rewrite (flat_index _ _ _ _ _ Hu Hp); lia|].
          specialize (Hge p Hp). lia.
        + assert (Happ : forall k, given k (u ++ w) = given k u ++ given k w).
          { intros k. unfold given. rewrite filter_app, map_app. reflexivity. }
          intros [|i] f Hi; cbn [nth_error] in Hi.
          * injection Hi as <-. rewrite Nat.add_0_r. exists u. split; [exact Hu|]. rewrite Happ.
            rewrite (given_nil_iff j w) by (intros p Hp; specialize (Hge p Hp); lia). rewrite app_nil_r.
            apply given_all. intros p Hp. eapply flat_index; eassumption.
          * destruct (Hn i f Hi) as (u' & Hu' & Hg). replace (j + S i) with (S j + i) by lia. exists u'. split; [exact Hu'|].
            rewrite Happ, (given_nil_iff (S j + i) u); [exact Hg|]. intros p Hp. rewrite (flat_index _ _ _ _ _ Hu Hp). lia. }
    destruct (Hgen fs 0 cf H) as [_ Hn]. exact (Hn i f Hi).
  Qed.

  Lemma decode_flat : forall top id td fs n a m kids vs i f,
    struct_type E id td fs -> nth_error fs i = Some f -> flattened f ->
    decode x E av fv top id (Elem n a m kids) = OOk (VRec vs) ->
    let rest := Elem n a m (filter (is_left (t_attrs td) fs) kids) in
    (forall id', f_ty f = TBase (BUser id') -> exists v, nth_error vs i = Some v /\ fv id' rest = OOk v) /\
    (forall id', f_ty f = TOpt (BUser id') ->
       (exists v, nth_error vs i = Some (VOpt (Some v)) /\ fv id' rest = OOk v) \/
       (nth_error vs i = Some (VOpt None) /\ exists e, fv id' rest = OErr e)).
  Proof.
    intros top id td fs n a m kids vs i f Hs Hi [Ha Hf] H rest.
    destruct (decode_struct_ok _ _ _ _ _ _ _ _ _ _ _ _ _ Hs H) as (ca & ck & cf & vs' & _ & Hca & Hck & Hcf & Hr & Heq).
    injection Heq as <-. destruct (fields_result_nth _ _ _ _ _ _ _ _ Hr Hi) as (v & Hv & Hfr). cbn [Nat.add] in Hfr.
    destruct (flat_given_nth _ _ _ _ _ Hcf Hi) as (u & Hu & Hg).
    assert (Hother : (forall b, f_ty f <> TBase (BSimple b) /\ f_ty f <> TOpt (BSimple b)) -> given i (ca ++ ck ++ cf) = map snd u).
    { intros Hty. rewrite <- Hg. unfold given. rewrite !filter_app, !map_app.
      fold (given i ca). fold (given i ck). fold (given i cf).
      rewrite (given_attrs_nil _ _ _ _ _ _ _ Hca Hi) by congruence.
      assert (given i ck = []) as ->; [|reflexivity].
      apply given_nil_iff. intros p Hp <-.
      destruct (ocollect_in _ _ _ _ _ _ Hck Hp) as (k & w & Hk & Hw & Hpw). destruct k as [kn ka km kk|s].
      - destruct (kid_given_match x av fv _ _ _ _ _ _ Hw Hpw) as (g & Hg1 & Hg2). apply field_for_spec in Hg2.
        rewrite Hi in Hg1. injection Hg1 as <-. destruct Hg2 as (_ & _ & Hx & _). congruence.
      - cbn [kid_given] in Hw. injection Hw as <-. apply in_map_iff in Hpw. destruct Hpw as (j & <- & Hj).
        unfold text_fields in Hj. apply in_map_iff in Hj. destruct Hj as ([j' g] & <- & Hj). apply filter_In in Hj.
        destruct Hj as [H1 H2]. cbn [fst snd] in *. apply numbered_in in H1. rewrite Hi in H1. injection H1 as <-.
        apply andb_true_iff in H2. destruct H2 as [_ H2]. destruct (f_ty f) as [[[]|]|[[]|]| |] eqn:Ht; try discriminate;
          [destruct (Hty SString) as [Hx _]|destruct (Hty SString) as [_ Hx]]; congruence. }
    change (rest_of (t_attrs td) fs n a m kids) with rest in Hu. unfold flat_given in Hu. rewrite Ha, Hf in Hu. cbn [negb andb] in Hu.
    split; intros id' Hty; rewrite Hty in Hu.
    - rewrite Hother in Hfr by (intros b; rewrite Hty; split; discriminate).
      destruct (fv id' rest) as [w| | |] eqn:Hw; cbn [obind] in Hu; try discriminate. injection Hu as <-. cbn [map snd] in Hfr.
      unfold field_result in Hfr. rewrite Hty in Hfr. cbn [last_of] in Hfr. injection Hfr as <-. eauto.
    - rewrite Hother in Hfr by (intros b; rewrite Hty; split; discriminate). unfold field_result in Hfr. rewrite Hty in Hfr.
      destruct (fv id' rest) as [w|e| |] eqn:Hw; cbn [obind] in Hu; try discriminate; injection Hu as <-; cbn [map snd last_of] in Hfr; injection Hfr as <-.
      + left. eauto.
      + right. eauto.
  Qed.
End Read.

Theorem flat_read : forall x E k id td fs d n a m kids rest i f vs,
  struct_type E id td fs -> nth_error fs i = Some f -> flattened f ->
  Unclaimed (t_attrs td) fs kids rest -> Conforms x E k id (Elem n a m kids) ->
  Reads x E id d (Elem n a m kids) (OOk (VRec vs)) ->
  (forall id', f_ty f = TBase (BUser id') ->
     exists v, nth_error vs i = Some v /\ Reads x E id' 0 (reread [] (wn (Elem n a m rest))) (OOk v)) /\
  (forall id', f_ty f = TOpt (BUser id') ->
     (exists v, nth_error vs i = Some (VOpt (Some v)) /\ Reads x E id' 0 (reread [] (wn (Elem n a m rest))) (OOk v)) \/
     (nth_error vs i = Some (VOpt None) /\ exists e, Reads x E id' 0 (reread [] (wn (Elem n a m rest))) (OErr e))).
Proof.
  intros x E k id td fs d n a m kids rest i f vs Hs Hi Hf Hun Hc Hr.
  apply unclaimed_filter in Hun. subst rest. pose proof Hr as Hd. apply (read_decode x E k) in Hd; [|exact Hc].
  destruct (decode_flat _ _ _ _ _ _ _ _ _ _ _ _ _ _ _ Hs Hi Hf Hd) as [H1 H2].
  assert (Hin : In f fs) by (eapply nth_error_In; exact Hi).
  assert (Hflat : flat_field f = true) by (destruct Hf as [Ha Hb]; unfold flat_field; rewrite Ha, Hb; reflexivity).
  destruct k as [|k].
  { apply (conforms_struct x E 0 _ _ _ _ _ _ _ Hs) in Hc. destruct Hc as (_ & _ & _ & Hfl).
    assert (Hfls : flattens fs = true) by (apply existsb_exists; eauto). destruct (Hfl Hfls) as [Hx _].
    destruct (Hx f Hin Hflat) as (id' & _ & []). }
  apply (conforms_struct x E (S k) _ _ _ _ _ _ _ Hs) in Hc. destruct Hc as (_ & _ & _ & Hfl).
  assert (Hfls : flattens fs = true) by (apply existsb_exists; eauto). destruct (Hfl Hfls) as [Hx _].
  destruct (Hx f Hin Hflat) as (id0 & Hty0 & Hw & Hc').
  assert (Hrd : forall o, value_of x E k true id0 (reread [] (wn (Elem n a m (filter (is_left (t_attrs td) fs) kids)))) = o ->
    Reads x E id0 0 (reread [] (wn (Elem n a m (filter (is_left (t_attrs td) fs) kids)))) o).
  { intros o <-. apply (value_read x E k id0 _ 0 Hc'). }
  split; intros id' Hty.
  - assert (id' = id0) as -> by (destruct Hty0; congruence). destruct (H1 id0 Hty) as (v & Hv & Hval). exists v. split; [exact Hv|].
    apply Hrd. exact Hval.
  - assert (id' = id0) as -> by (destruct Hty0; congruence). destruct (H2 id0 Hty) as [(v & Hv & Hval)|(Hv & e & Hval)].
    + left. exists v. split; [exact Hv|]. apply Hrd. exact Hval.
    + right. split; [exact Hv|]. exists e. apply Hrd. exact Hval.
Qed.

(** ** Writing *)
Lemma tag_flat : forall x E ra self fs vs own child ns i f id' v,
  enc_tag x (encode x E) (encode_attrs x E) ra self fs vs = Some (own, child, ns) ->
  nth_error fs i = Some f -> nth_error vs i = Some v -> flattened f -> f_ty f = TBase (BUser id') ->
  exists ca cn c1 c2, encode_attrs x E id' v = Some (ca, cn) /\ child = c1 ++ ca ++ c2 /\
    forall p u, In (p, u) cn -> exists u', In (p, u') ns.
Proof.
  intros x E ra self. induction fs as [|g fs IH]; intros [|w vs] own child ns i f id' v H Hi Hv [Ha Hf] Hty; try discriminate;
    [destruct i; discriminate|].
  cbn [enc_tag] in H. destruct (enc_tag x (encode x E) (encode_attrs x E) ra self fs vs) as [[[own' child'] ns']|] eqn:Hr; [|discriminate].
  destruct i as [|i]; cbn [nth_error] in Hi, Hv.
  - injection Hi as ->. injection Hv as ->. rewrite Ha, Hf, Hty in H. apply omap_some in H. destruct H as ([ca cn] & He & Heq).
    injection Heq as -> -> ->. exists ca, cn, [], child'. split; [exact He|]. split; [reflexivity|].
    intros p u Hp. exists u. apply ns_extend_keeps. exact Hp.
  - destruct (IH vs own' child' ns' i f id' v Hr Hi Hv (conj Ha Hf) Hty) as (ca & cn & c1 & c2 & He & -> & Hns).
    assert (Hsame : (exists c0, child = c0 ++ c1 ++ ca ++ c2) /\ forall p u, In (p, u) ns' -> exists u', In (p, u') ns).
    { destruct (ya_attribute (f_attrs g)).
      - apply omap_some in H. destruct H as (l & _ & Heq). injection Heq as -> -> ->. split; [exists []; reflexivity|eauto].
      - assert (Hid : Some (own', c1 ++ ca ++ c2, ns') = Some (own, child, ns) ->
          (exists c0, child = c0 ++ c1 ++ ca ++ c2) /\ forall p u, In (p, u) ns' -> exists u', In (p, u') ns).
        { intros Hx. injection Hx as _ <- <-. split; [exists []; reflexivity|eauto]. }
        destruct (ya_flatten (f_attrs g)); [|apply Hid; exact H].
        destruct (f_ty g) as [[s|idg]| | |]; try (apply Hid; exact H).
        apply omap_some in H. destruct H as ([ga gn] & _ & Heq). injection Heq as -> -> ->. split; [exists ga; reflexivity|].
        intros p u Hp. apply (ns_extend_has ns' gn p u Hp). }
    destruct Hsame as [[c0 ->] Hs]. exists ca, cn, (c0 ++ c1), c2. split; [exact He|]. split; [rewrite <- app_assoc; reflexivity|].
    intros p u Hp. destruct (Hns p u Hp) as [u' Hu']. exact (Hs p u' Hu').
Qed.

Theorem flat_attributes : forall x E id td fs o vs n a m body i f id' td' v n' a' m' body',
  struct_type E id td fs -> ya_flatten (t_attrs td) = false ->
  Written x E id o (VRec vs) (WStart n a m :: body) ->
  nth_error fs i = Some f -> nth_error vs i = Some v -> flattened f -> f_ty f = TBase (BUser id') ->
  nth_error E id' = Some td' -> has_element td' ->
  Written x E id' None v (WStart n' a' m' :: body') ->
  (exists a1 a2, a = a1 ++ a' ++ a2) /\ (forall p u, In (p, u) m' -> exists u', In (p, u') m).
Proof.
  intros x E id td fs o vs n a m body i f id' td' v n' a' m' body' [Htd Hb] Hfl H Hi Hv Hf Hty Htd' Hel H'.
  apply written_encode, omap_some in H. destruct H as (ts & H & Heq).
  rewrite encode_eq in H. unfold enc_type in H. rewrite Htd, Hb, Hfl in H.
  destruct (enc_start x (encode x E) (encode_attrs x E) td (VRec vs)) as [[[own child] ns]|] eqn:Hs; [|discriminate].
  destruct (enc_content x (encode x E) (Under o) td (VRec vs)) as [ks|] eqn:Hc; [|discriminate]. injection H as <-.
  cbn [flat_map wtree app] in Heq. injection Heq as -> -> -> _.
  unfold enc_start in Hs. rewrite Hb in Hs. destruct (tag_flat _ _ _ _ _ _ _ _ _ _ _ _ _ Hs Hi Hv Hf Hty) as (ca & cn & c1 & c2 & He & -> & Hns).
  assert (Hchild : a' = ca /\ m' = cn).
  { apply written_encode, omap_some in H'. destruct H' as (ts' & H' & Heq').
    rewrite encode_eq in H'. rewrite encode_attrs_eq in He. unfold enc_type in H'. unfold enc_type_attrs in He. rewrite Htd' in H', He.
    destruct (t_body td') as [fs'|vars dd|pk] eqn:Hb'.
    - destruct Hel as [[k Hk]|Hel]; [congruence|]. rewrite Hel in H'.
      destruct (enc_start x (encode x E) (encode_attrs x E) td' v) as [[[own' child'] ns']|]; [|discriminate].
      destruct (enc_content x (encode x E) (Under None) td' v); [|discriminate]. injection H' as <-. cbn [flat_map wtree app] in Heq'.
      injection Heq' as _ -> -> _. injection He as <- <-. split; reflexivity.
    - destruct Hel as [[k Hk]|Hel]; [congruence|]. rewrite Hel in H'.
      destruct (enc_start x (encode x E) (encode_attrs x E) td' v) as [[[own' child'] ns']|]; [|discriminate].
      destruct (enc_content x (encode x E) (Under None) td' v); [|discriminate]. injection H' as <-. cbn [flat_map wtree app] in Heq'.
      injection Heq' as _ -> -> _. injection He as <- <-. split; reflexivity.
    - apply omap_some in H'. destruct H' as (t & _ & ->). cbn in Heq'. injection Heq' as _ -> -> _. injection He as <- <-. split; reflexivity. }
  destruct Hchild as [-> ->]. split.
  - exists (own ++ c1), c2. rewrite <- app_assoc. reflexivity.
  - intros p u Hp. destruct (Hns p u Hp) as [u' Hu']. apply (ns_extend_has ns (declared (t_attrs td)) p u' Hu').
Qed.

(** The content of the flattened value stands among that of the other
    fields. *)
Theorem flat_content : forall x E id td fs1 f fs2 o vs1 v vs2 l b items,
  struct_type E id td (fs1 ++ f :: fs2) -> ya_flatten (t_attrs td) = false -> List.length vs1 = List.length fs1 ->
  flattened f -> ya_text (f_attrs f) = false -> ya_cdata (f_attrs f) = false -> base_of (f_ty f) = BUser b ->
  items_of (f_ty f) v = Some items -> ~ suppressed x (VRec (vs1 ++ v :: vs2)) f v ->
  Written x E id o (VRec (vs1 ++ v :: vs2)) l ->
  exists parts, Forall2 (Content x E b) items parts /\
    Surrounded x E (t_attrs td) (VRec (vs1 ++ v :: vs2)) fs1 vs1 (concat parts) fs2 vs2 l.
Proof.
  intros x E id td fs1 f fs2 o vs1 v vs2 l b items Hst Hfl Hlen [Ha Hf] Ht Hcd Hb Hit Hns H.
  destruct (one_field_out _ _ _ _ _ _ _ _ _ _ _ _ Hst Hfl Hlen H) as (p & Hp & Hs).
  inversion Hp as [v' Hx|t Hx Hx2|t Hx Hx2|Hx Hx2|v' Hx Hx2 Hx3|t Hx Hx2 Hx3 Hx4|v' items' parts Hx Hx2 Hx3 Hx4 Hx5 Hx6];
    subst; try congruence; try contradiction.
  rewrite Hit in Hx5. injection Hx5 as <-. exists parts. split; [|exact Hs].
  rewrite Hf in Hx6. change (base_type (f_ty f)) with (base_of (f_ty f)) in Hx6. rewrite Hb in Hx6.
  clear - Hx6. induction Hx6 as [|w part items parts Hi _ IH]; constructor; [|exact IH].
  inversion Hi; subst; [congruence|assumption].
Qed.

(** For structs: what stands between the tags when written on its own. *)
Theorem struct_content : forall x E id td fs o vs n a m body,
  struct_type E id td fs -> ya_flatten (t_attrs td) = false ->
  (Written x E id o (VRec vs) (WStart n a m :: body ++ [WEnd None]) -> Content x E id (VRec vs) body).
Proof.
  intros x E id td fs o vs n a m body [Htd Hb] Hfl H. apply content_encode. apply written_encode, omap_some in H.
  destruct H as (ts & H & Heq). rewrite encode_eq in H |- *. unfold enc_type in *. rewrite Htd, Hb in *. rewrite Hfl in H.
  destruct (enc_start x (encode x E) (encode_attrs x E) td (VRec vs)) as [[[own child] ns]|]; [|discriminate].
  unfold enc_content in *. rewrite Hb in *.
  destruct (enc_fields x (encode x E) (t_attrs td) (VRec vs) fs vs) as [ks|]; [|discriminate]. injection H as <-.
  cbn [flat_map wtree app] in Heq. injection Heq as _ _ _ Heq. rewrite app_nil_r in Heq. apply app_inj_tail in Heq. destruct Heq as [-> _]. reflexivity.
Qed.
