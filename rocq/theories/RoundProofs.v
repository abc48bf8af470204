(** * Values survive writing and reading, on document trees. *)
From Verif Require Import Str Num Xml XmlText Reader Schema De SpecTree SpecText SpecNum SpecTyped SpecStruct SpecSer SpecValue
  SpecEnc SpecRound TreeFacts TreeProofs TextProofs ValueProofs StructProofs StructReads EncProofs SerProofs RoundNames RoundTexts RoundCore
  RoundFields.
Open Scope list_scope.

Section Attrs.
  Variable x : ext.
  Variable E : env.
  Notation av := (attr_value_at x E 1).
  Notation af := (attr_fine_at x E 1).
  Variable ra : yattr.
  Variable fs : list field.
  Variable st : nsstack.
  Hypothesis Hcons : consistent E.
  Hypothesis Hra : forall pu, In pu (own_bindings ra) -> In pu (bindings E).
  Hypothesis Hfine : struct_fine E ra fs.
  Hypothesis Hst : within (bindings E) st.
  Hypothesis Hholds : holds st ra.
  Variable tn : string.

  Lemma attr_name : forall f, In f fs -> ya_attribute (f_attrs f) = true ->
    n_local (qname (field_qname ra f)) = field_name f /\
    forall t, legal t = true -> good_attr st (Attr (qname (field_qname ra f)) t).
  Proof.
    intros f Hin Ha. destruct Hfine as (_ & Hf & _). specialize (Hf f Hin). rewrite Ha in Hf.
    destruct Hf as (Hid & Hx & Hp & _). change (field_qname ra f) with (prefix_part (ya_default_namespace ra) (ya_prefix (f_attrs f)) +++ field_name f).
    unfold prefix_part. destruct (opt_eqb (ya_default_namespace ra) (ya_prefix (f_attrs f))) eqn:He.
    { cbn [String.append]. rewrite qname_plain by apply Hid. split; [reflexivity|]. intros t Ht.
      split; [apply good_plain; exact Hid|]. split; [exact I|]. split; [exact Ht|]. split; [discriminate|]. intros _. exact Hx. }
    destruct (ya_prefix (f_attrs f)) as [p|] eqn:Hpf.
    - destruct (Hp p eq_refl) as [Hip Hg]. destruct (ns_get (ya_namespaces ra) p) as [u|] eqn:Hget; [clear Hg|congruence].
      apply ns_get_in in Hget. apply own_in in Hget. rewrite He in Hget. pose proof (Hholds _ _ Hget) as Hn.
      destruct (proj2 Hcons _ _ (Hra _ Hget)) as [(_ & Hd1 & Hd2 & _) _]. cbn [fst snd] in *.
      rewrite sapp_assoc, qname_prefixed by apply Hip. split; [reflexivity|]. intros t Ht.
      split; [apply good_prefixed; assumption|]. split.
      { unfold bound. cbn [n_prefix at_name]. unfold lookup_prefix. destruct (String.eqb_spec p "xml"); [discriminate|]. rewrite Hn. discriminate. }
      split; [exact Ht|]. cbn [at_name n_prefix]. split; [congruence|discriminate].
    - cbn [String.append]. rewrite qname_plain by apply Hid. split; [reflexivity|]. intros t Ht.
      split; [apply good_plain; exact Hid|]. split; [exact I|]. split; [exact Ht|]. split; [discriminate|]. intros _. exact Hx.
  Qed.

  Lemma attr_round : forall self f v a, In f fs -> ya_attribute (f_attrs f) = true ->
    FieldSurvives x E false self f v -> enc_attr x (encode x E) ra self f v = Some a ->
    (a = [] /\ field_result x tn f [] = Ok v) \/
    exists t w, a = [Attr (qname (field_qname ra f)) t] /\ legal_attr t = true /\
      (exists b, f_ty f = TBase b \/ f_ty f = TOpt b) /\
      attr_item x av (base_of (f_ty f)) t = OOk w /\ (forall id, base_of (f_ty f) = BUser id -> af id t) /\
      field_result x tn f [w] = Ok v.
  Proof.
    intros self f v a Hin Ha Hs He.
    assert (Hmiss : forall g u, g = f -> missing_value x g = Some u -> field_result x tn f [] = Ok u).
    { intros g u -> Hu. rewrite field_result_missing, Hu. reflexivity. }
    assert (Hgen : forall t w, f_ty f = TBase t /\ v = w \/ f_ty f = TOpt t /\ v = VOpt (Some w) ->
      ~ unneeded x self f v -> AttrSurvives x E t w -> exists s, a = [Attr (qname (field_qname ra f)) s] /\ legal_attr s = true /\
      (exists b, f_ty f = TBase b \/ f_ty f = TOpt b) /\
      attr_item x av (base_of (f_ty f)) s = OOk w /\ (forall id, base_of (f_ty f) = BUser id -> af id s) /\
      field_result x tn f [w] = Ok v).
    { intros t w Hty Hu Hsv. assert (Hl : left_out x self v f false = false).
      { destruct (left_out x self v f false) eqn:Hl; [|reflexivity]. apply left_out_unneeded in Hl. tauto. }
      unfold enc_attr in He.
      assert (Hs' : exists s, attr_show x (encode x E) t w = Some s /\ a = [Attr (qname (field_qname ra f)) s]).
      { destruct Hty as [[Hty ->]|[Hty ->]]; rewrite Hty in He; apply omap_some in He; destruct He as (s & H1 & H2);
          rewrite Hl in H2; eauto. }
      destruct Hs' as (s & H1 & H2). destruct (attr_value_read x E t w s Hsv H1) as (H3 & H4 & H5). exists s.
      split; [exact H2|]. split; [exact H3|].
      destruct Hty as [[Hty ->]|[Hty ->]]; unfold field_result; rewrite Hty; cbn [base_of last_of]; eauto 10. }
    remember false as b0 eqn:Hb0. destruct Hs as [b self f t Hty|b self f t Hty|self f v Ha' Hv|b self f v Ha' Hu Hv|b self f v Ha' Ht Hsup Hv
      |self f v t w Ha' Hu Hty Hsv|b self f v t Ha' Ht Hty Hc|b self f t Ha' Ht Hns Hcd Hty Hc Hcl|b self f v l Ha' Ht Hns Hcd Hit Hl];
      try congruence; unfold enc_attr in He.
    - rewrite Hty in He. injection He as <-. left. split; [reflexivity|]. apply (Hmiss f); [reflexivity|].
      unfold missing_value. rewrite Hty. reflexivity.
    - rewrite Hty in He. injection He as <-. left. split; [reflexivity|]. apply (Hmiss f); [reflexivity|].
      unfold missing_value. rewrite Hty. reflexivity.
    - left. split; [|apply (Hmiss f v eq_refl Hv)]. apply left_out_unneeded in Hu. rewrite Hu in He.
      destruct (f_ty f) as [t|t|t|t]; [|destruct v as [| | | | |[w|]| | |]; try discriminate..| destruct v; try discriminate];
      try (apply omap_some in He; destruct He as (s & _ & ->); reflexivity); try (injection He as <-; reflexivity).
    - right. destruct (Hgen t w Hty Hu Hsv) as (s & Hr). exists s, w. exact Hr.
  Qed.

  Lemma rattr_local : forall a, n_local (at_name (rattr st a)) = n_local (at_name a) /\ at_value (rattr st a) = untab (at_value a).
  Proof. intros [n t]. unfold rattr. cbn [at_name at_value]. destruct (n_prefix n); auto. Qed.
  Lemma repr_local : forall a b, good_attr st a -> good_attr st b -> name_repr (at_name a) = name_repr (at_name b) ->
    n_local (at_name a) = n_local (at_name b).
  Proof.
    intros a b ((_ & Ha) & _) ((_ & Hb) & _) H. rewrite H in Ha. rewrite Ha in Hb. congruence.
  Qed.

  Lemma no_flat : forall f, In f fs -> ya_attribute (f_attrs f) = false -> ya_flatten (f_attrs f) = false.
  Proof. intros f Hin Ha. destruct Hfine as (_ & Hf & _). specialize (Hf f Hin). rewrite Ha in Hf. apply Hf. Qed.

  (** The start tag. *)
  Lemma tag_round : forall self fs' vs' i own child ns,
    (forall j f, nth_error fs' j = Some f -> nth_error fs (i + j) = Some f) ->
    FieldsSurvive x E false self fs' vs' ->
    enc_tag x (encode x E) (encode_attrs x E) ra self fs' vs' = Some (own, child, ns) ->
    child = [] /\ ns = [] /\ exists its, List.length its = List.length fs' /\
      (forall a, In a own -> good_attr st a /\ exists f, In f fs' /\ ya_attribute (f_attrs f) = true /\
         n_local (at_name a) = field_name f /\ (exists b, f_ty f = TBase b \/ f_ty f = TOpt b) /\
         forall id, base_of (f_ty f) = BUser id -> af id (untab (at_value a))) /\
      NoDup (map (fun a => name_repr (at_name a)) own) /\
      (forall j f it, nth_error fs' j = Some f -> nth_error its j = Some it -> ya_attribute (f_attrs f) = true ->
         ocollect (attr_given x av (i + j) f) (map (rattr st) own) = OOk (map (pair (i + j)) it)) /\
      (forall j f it v, nth_error fs' j = Some f -> nth_error its j = Some it -> nth_error vs' j = Some v ->
         ya_attribute (f_attrs f) = true -> field_result x tn f it = Ok v).
  Proof.
    intros self fs' vs' i own child ns Hpos Hs. revert i own child ns Hpos. remember false as b0 eqn:Hb0.
    induction Hs as [b self|b self f fs' v vs' Hf Hs IH]; intros i own child ns Hpos He; cbn [enc_tag] in He.
    - injection He as <- <- <-. split; [reflexivity|]. split; [reflexivity|]. exists [].
      split; [reflexivity|]. split; [intros ? []|]. split; [constructor|]. split; intros [|j] ? ? Hj; discriminate.
    - subst b. specialize (IH eq_refl).
      destruct (enc_tag x (encode x E) (encode_attrs x E) ra self fs' vs') as [[[own' child'] ns']|] eqn:Ht; [|discriminate].
      destruct (IH (S i) own' child' ns') as (-> & -> & its & H1 & H2 & H3 & H4 & H5).
      { intros j g Hj. rewrite Nat.add_succ_comm. apply Hpos. exact Hj. } { reflexivity. }
      pose proof (Hpos 0 f eq_refl) as H0. rewrite Nat.add_0_r in H0. pose proof (nth_error_In _ _ H0) as Hin.
      destruct (ya_attribute (f_attrs f)) eqn:Ha.
      + apply omap_some in He. destruct He as (a & He & Heq). injection Heq as -> -> ->.
        split; [reflexivity|]. split; [reflexivity|].
        assert (Hother : forall a', In a' own' -> n_local (at_name a') <> field_name f).
        { intros a' Hin' Hx. destruct (H2 a' Hin') as (_ & g & Hg & Hga & Hgn & _).
          apply In_nth_error in Hg. destruct Hg as [j Hj]. pose proof (Hpos (S j) g Hj) as Hj'.
          destruct Hfine as (_ & _ & Hd). assert (i = i + S j); [|lia].
          apply (Hd i (i + S j) f g H0 Hj'). right. left. repeat split; auto. congruence. }
        assert (Hlater : forall j g, nth_error fs' j = Some g -> ya_attribute (f_attrs g) = true -> field_name f <> field_name g).
        { intros j g Hj Hga Hx. pose proof (Hpos (S j) g Hj) as Hj'.
          destruct Hfine as (_ & _ & Hd). assert (i = i + S j); [|lia]. apply (Hd i (i + S j) f g H0 Hj'). auto 6. }
        destruct (attr_name f Hin Ha) as [Hn Hgood].
        destruct (attr_round self f v a Hin Ha Hf He) as [[-> Hres]|(t & w & -> & Hlega & Hty & Hit & Haf & Hres)];
          [|assert (Hleg : legal t = true) by (apply andb_true_iff in Hlega; apply Hlega); pose proof (untab_legal t Hlega) as Hut].
        * cbn [app]. exists ([] :: its). split; [cbn; congruence|].
          split; [intros a' Hin'; destruct (H2 a' Hin') as (A & g & B & C); split; [exact A|exists g; split; [right; exact B|exact C]]|].
          split; [exact H3|]. split.
          { intros [|j] g it Hj Hi Hga; cbn [nth_error] in *.
            - injection Hj as <-. injection Hi as <-. cbn [map]. rewrite Nat.add_0_r. apply attrs_given_other.
              intros a' Hin'. apply in_map_iff in Hin'. destruct Hin' as (a1 & <- & Hin'). rewrite (proj1 (rattr_local a1)).
              apply Hother. exact Hin'.
            - rewrite <- Nat.add_succ_comm. apply H4; assumption. }
          { intros [|j] g it u Hj Hi Hv Hga; cbn [nth_error] in *; [congruence|]. apply (H5 j); assumption. }
        * exists ([w] :: its). split; [cbn; congruence|]. cbn [app]. split.
          { intros a' [<-|Hin'].
            - split; [apply Hgood; exact Hleg|]. exists f. split; [left; reflexivity|]. split; [exact Ha|].
              split; [exact Hn|]. split; [exact Hty|]. cbn [at_value]. rewrite Hut. exact Haf.
            - destruct (H2 a' Hin') as (A & g & B & C). split; [exact A|]. exists g. split; [right; exact B|exact C]. }
          split.
          { cbn [map]. constructor; [|exact H3]. intros Hx. apply in_map_iff in Hx. destruct Hx as (a' & Hr & Hin').
            apply (Hother a' Hin'). destruct (H2 a' Hin') as (Hga & _).
            rewrite (repr_local a' (Attr (qname (field_qname ra f)) t) Hga (Hgood t Hleg) Hr). exact Hn. }
          split.
          { intros [|j] g it Hj Hi Hga; cbn [nth_error] in *.
            - injection Hj as <-. injection Hi as <-. cbn [map]. rewrite Nat.add_0_r, ocollect_cons.
              assert (Hone : attr_given x av i f (rattr st (Attr (qname (field_qname ra f)) t)) = OOk [(i, w)]).
              { unfold attr_given. rewrite (proj1 (rattr_local _)), (proj2 (rattr_local _)). cbn [at_name at_value]. rewrite Hut.
                change (snd (flabel ya0 f)) with (field_name f). rewrite Hn, String.eqb_refl.
                destruct Hty as [b [Hty|Hty]]; rewrite Hty in Hit |- *; rewrite Hit; reflexivity. }
              rewrite Hone. rewrite attrs_given_other; [reflexivity|].
              intros a' Hin'. apply in_map_iff in Hin'. destruct Hin' as (a1 & <- & Hin'). rewrite (proj1 (rattr_local a1)).
              apply Hother. exact Hin'.
            - cbn [map]. rewrite <- Nat.add_succ_comm, ocollect_cons, attr_given_other.
              + rewrite (H4 j g it Hj Hi Hga). reflexivity.
              + rewrite (proj1 (rattr_local _)). cbn [at_name]. rewrite Hn. apply (Hlater j); assumption. }
          { intros [|j] g it u Hj Hi Hv Hga; cbn [nth_error] in *; [congruence|]. apply (H5 j); assumption. }
      + rewrite (no_flat f Hin Ha) in He. injection He as <- <- <-. split; [reflexivity|]. split; [reflexivity|].
        exists ([] :: its). split; [cbn; congruence|].
        split; [intros a' Hin'; destruct (H2 a' Hin') as (A & g & B & C); split; [exact A|exists g; split; [right; exact B|exact C]]|].
        split; [exact H3|]. split.
        { intros [|j] g it Hj Hi Hga; cbn [nth_error] in *; [congruence|]. rewrite <- Nat.add_succ_comm. apply H4; assumption. }
        { intros [|j] g it u Hj Hi Hv Hga; cbn [nth_error] in *; [congruence|]. apply (H5 j); assumption. }
  Qed.

  (** Without start tag, attributes get what a missing attribute gets. *)
  Lemma lost_attrs : forall self fs' vs' j f v, FieldsSurvive x E true self fs' vs' ->
    nth_error fs' j = Some f -> nth_error vs' j = Some v -> ya_attribute (f_attrs f) = true ->
    field_result x tn f [] = Ok v.
  Proof.
    intros self fs' vs' j f v Hs. revert j. remember true as b0 eqn:Hb0.
    induction Hs as [b self|b self g fs' w vs' Hf Hs IH]; intros [|j] Hj Hv Ha; try discriminate; cbn [nth_error] in *.
    - injection Hj as ->. injection Hv as ->. rewrite field_result_missing.
      destruct Hf as [b self f t Hty|b self f t Hty|self f v Ha' Hv|b self f v Ha' Hu Hv|b self f v Ha' Ht Hsup Hv
        |self f v t w Ha' Hu Hty Hsv|b self f v t Ha' Ht Hty Hc|b self f t Ha' Ht Hns Hcd Hty Hc Hcl|b self f v l Ha' Ht Hns Hcd Hit Hl];
        try congruence; try (rewrite Hv; reflexivity); unfold missing_value; rewrite Hty; reflexivity.
    - apply (IH Hb0 j); assumption.
  Qed.
End Attrs.

Section Round.
  Variable x : ext.
  Variable E : env.
  Hypothesis Hsup : supported E.
  Notation av := (attr_value_at x E 1).
  Notation fv := (flat_value_at x E 1).
  Notation af := (attr_fine_at x E 1).
  Notation ff := (flat_fine_at x E 1).
  Notation Dec := (decode x E av fv false).
  Notation FitsE := (Fits x E af ff).
  Notation B := (bindings E).

  Lemma own_bound : forall id td, nth_error E id = Some td -> forall pu, In pu (own_bindings (t_attrs td)) -> In pu B.
  Proof. intros id td H pu Hin. unfold bindings. apply in_flat_map. exists td. split; [apply nth_error_In in H; exact H|exact Hin]. Qed.

  Definition inside_works (w : value) : Prop := forall id p l st n, Survives x E true id w ->
    encode x E id w Inside = Some p -> within B st -> elabel n = l -> n_ns n <> Some "" -> accepts E id l ->
    (forall k, In k p -> Writable st k) /\
    forall m, FitsE id (Elem n [] m (reread_kids st p "")) /\ Dec id (Elem n [] m (reread_kids st p "")) = OOk w.

  (** Name of the type's own element, and what the element declares. *)
  Definition type_root (td : typedef) : string := match t_body td with DPrim _ => t_name td | _ => ser_root td end.
  Definition type_decls (td : typedef) : nsmap := match t_body td with DPrim _ => [] | _ => declared (t_attrs td) end.
  Definition written_works (w : value) : Prop := forall o id q p l st, Survives x E false id w ->
    encode x E id w (Under o) = Some p -> within B st ->
    (forall td, nth_error E id = Some td -> opt_default (type_root td) o = q) ->
    (forall td, nth_error E id = Some td -> means B (declare st (type_decls td) :: st) q l) -> accepts E id l ->
    exists a m c, p = [WElem (qname q) a m c] /\ Writable st (WElem (qname q) a m c) /\
      elabel (rname (declare st m :: st) (qname q)) = l /\
      FitsE id (reread st (WElem (qname q) a m c)) /\ Dec id (reread st (WElem (qname q) a m c)) = OOk w.

  Section Step.
  Variable N : nat.
  Hypothesis IHU : forall w, height w < N -> under_works x E w.
  Hypothesis IHI : forall w, height w < N -> inside_works w.

  (** ** Structs *)
  Lemma struct_round : forall b id td fs vs st a n m ks, struct_type E id td fs ->
    (forall v, In v vs -> height v < N) -> within B st -> holds st (t_attrs td) ->
    FieldsSurvive x E b (VRec vs) fs vs -> enc_fields x (encode x E) (t_attrs td) (VRec vs) fs vs = Some ks ->
    (b = true -> a = []) ->
    (b = false -> exists own, enc_tag x (encode x E) (encode_attrs x E) (t_attrs td) (VRec vs) fs vs = Some (own, [], []) /\ a = map (rattr st) own) ->
    accepts E id (elabel n) ->
    (forall k, In k ks -> Writable st k) /\ FitsE id (Elem n a m (reread_kids st ks "")) /\
    Dec id (Elem n a m (reread_kids st ks "")) = OOk (VRec vs).
  Proof.
    intros b id td fs vs st a n m ks [Htd Hb] Hh Hst Hholds Hs He Ha1 Ha2 Hacc.
    destruct Hsup as [Hcons Hall]. pose proof (Hall id td Htd) as Hfine. rewrite Hb in Hfine.
    pose proof (own_bound id td Htd) as Hra.
    destruct (fields_round x E N IHU Hcons (t_attrs td) fs st Hra Hfine Hst Hholds (t_name td) b (VRec vs) fs vs 0 ks
      (fun j f h => h) Hh Hs He) as (its & H1 & H2 & H3 & H4 & _ & H6).
    assert (Hlen : List.length vs = List.length fs).
    { clear -Hs. induction Hs; cbn; congruence. }
    assert (Hattrs : exists itsA, List.length itsA = List.length fs /\ attrs_fine af fs a /\
      attrs_given x av fs a = OOk (contrib (fun f => ya_attribute (f_attrs f)) 0 fs itsA) /\
      (forall j f it v, nth_error fs j = Some f -> nth_error itsA j = Some it -> nth_error vs j = Some v ->
         ya_attribute (f_attrs f) = true -> field_result x (t_name td) f it = Ok v)).
    { destruct b.
      - rewrite (Ha1 eq_refl). exists (map (fun _ => []) fs). split; [apply map_length|]. split; [intros ? ? ? ? []|]. split.
        + unfold attrs_given, numbered. apply attrs_contrib; [apply map_length|]. intros j f it Hj Hi _.
          rewrite nth_error_map, Hj in Hi. injection Hi as <-. reflexivity.
        + intros j f it v Hj Hi Hv Ha. rewrite nth_error_map, Hj in Hi. injection Hi as <-.
          eapply lost_attrs; eassumption.
      - destruct (Ha2 eq_refl) as (own & Ht & ->).
        destruct (tag_round x E (t_attrs td) fs st Hcons Hra Hfine Hholds (t_name td) (VRec vs) fs vs 0 own [] []
          (fun j f h => h) Hs Ht) as (_ & _ & itsA & G1 & G2 & G3 & G4 & G5).
        exists itsA. split; [exact G1|]. split; [|split; [|exact G5]].
        + intros f a' id' Hin Hin' Haf Hname Hbase. apply in_map_iff in Hin'. destruct Hin' as (a1 & <- & Hin').
          rewrite (proj1 (rattr_local st a1)) in Hname. rewrite (proj2 (rattr_local st a1)).
          destruct (G2 a1 Hin') as (_ & g & Hg & Hga & Hgn & Hgt & Hgf).
          assert (g = f).
          { apply In_nth_error in Hg. apply In_nth_error in Hin. destruct Hg as [j Hj]. destruct Hin as [k Hk].
            destruct Hfine as (_ & _ & Hd). assert (j = k); [|congruence].
            apply (Hd j k g f Hj Hk). right. left. repeat split; auto. rewrite <- Hgn. exact Hname. }
          subst g. destruct Hgt as [t [Ht'|Ht']]; rewrite Ht'; apply Hgf; exact Hbase.
        + unfold attrs_given, numbered. apply attrs_contrib; [exact G1|]. intros j f it Hj Hi Hfa. apply (G4 j); assumption. }
    destruct Hattrs as (itsA & G1 & G2 & G3 & G4).
    split; [exact H2|].
    assert (Hnf : flattens fs = false).
    { destruct (flattens fs) eqn:Hfl; [|reflexivity]. exfalso. apply existsb_exists in Hfl. destruct Hfl as (f & Hin & Hff).
      unfold flat_field in Hff. apply andb_true_iff in Hff. destruct Hff as [Hff1 Hff2]. apply negb_true_iff in Hff1.
      rewrite (no_flat E (t_attrs td) fs Hfine f Hin Hff1) in Hff2. discriminate. }
    split.
    - eapply fits_struct; [exact Htd|exact Hb| |exact G2|exact H3|congruence].
      specialize (Hacc td Htd). rewrite Hb in Hacc. destruct Hacc as [Hacc|Hacc]; [left; exact Hacc|right].
      apply field_for_none. exact Hacc.
    - rewrite (decode_struct_intro x E av fv false id td fs n a m _ _ _ [] (conj Htd Hb) ltac:(discriminate) G3 H4).
      2:{ apply flat_given_off. exact Hnf. }
      rewrite app_nil_r.
      rewrite (fields_result_all x (t_name td) _ fs vs (map (fun j => given j (contrib (fun f => ya_attribute (f_attrs f)) 0 fs itsA ++ contrib (fun f => negb (ya_attribute (f_attrs f))) 0 fs its)) (seq 0 (List.length fs))) 0).
      + reflexivity.
      + rewrite map_length, seq_length. reflexivity.
      + intros j f it v Hj Hi Hv. rewrite nth_error_map in Hi.
        assert (Hjl : j < List.length fs) by (apply nth_error_Some; congruence).
        destruct (nth_error (seq 0 (List.length fs)) j) as [j'|] eqn:Hj'; [|discriminate]. injection Hi as <-.
        apply (nth_error_nth _ _ 0) in Hj'. rewrite seq_nth in Hj' by exact Hjl. subst j'. cbn [Nat.add].
        split; [reflexivity|]. rewrite given_app.
        destruct (nth_error itsA j) as [ia|] eqn:Hia; [|apply nth_error_None in Hia; lia].
        destruct (nth_error its j) as [ik|] eqn:Hik; [|apply nth_error_None in Hik; lia].
        pose proof (given_contrib (fun f => ya_attribute (f_attrs f)) fs itsA 0 j f ia Hj Hia) as Hg1.
        pose proof (given_contrib (fun f => negb (ya_attribute (f_attrs f))) fs its 0 j f ik Hj Hik) as Hg2.
        cbn [Nat.add] in Hg1, Hg2. rewrite Hg1, Hg2.
        destruct (ya_attribute (f_attrs f)) eqn:Hfa; cbn [negb].
        * rewrite app_nil_r. apply (G4 j); assumption.
        * cbn [app]. apply (H6 j); assumption.
      + exact Hlen.
  Qed.

  (** ** Payloads of enum variants *)
  Definition payload_content (b : base) (w : value) : option (list wnode) :=
    match b with
    | BSimple s => SpecEnc.omap (fun t => [WTxt t]) (show_simple x s w)
    | BUser id => encode x E id w Inside
    end.

  Lemma payload_item_content : forall q b w, InsideSurvives x E b w ->
    enc_payload_item x (encode x E) q b w = SpecEnc.omap (fun ks => [WElem (qname q) [] [] ks]) (payload_content b w).
  Proof.
    intros q b w H. unfold enc_payload_item. f_equal. destruct H as [s v H|id v H]; [|reflexivity].
    destruct s; try reflexivity. destruct v; cbn in H; tauto || reflexivity.
  Qed.
  Lemma simple_content : forall q s w, enc_simple x q s w = SpecEnc.omap (fun ks => [WElem (qname q) [] [] ks]) (payload_content (BSimple s) w).
  Proof. intros q s w. unfold enc_simple, payload_content, text_elem. destruct (show_simple x s w); reflexivity. Qed.

  Lemma payload_item_round : forall id td vs d i vr fl t st w ks,
    nth_error E id = Some td -> t_body td = DEnum vs d -> first_variant vs i vr -> v_body vr = VbNew fl t ->
    within B st -> holds st (t_attrs td) -> height w < N ->
    InsideSurvives x E (base_of t) w -> payload_content (base_of t) w = Some ks ->
    let k := WElem (qname (variant_qname (t_attrs td) vr)) [] [] ks in
    Writable st k /\ PayloadFits x E af ff vs (reread st k) /\
    forall cur, payload_given x Dec vs cur (reread st k) = store t i w cur.
  Proof.
    intros id td vs d i vr fl t st w ks Htd Hb Hv Hbody Hst Hholds Hh Hs Hc k.
    destruct Hsup as [Hcons Hall]. pose proof (Hall id td Htd) as Hfine. rewrite Hb in Hfine.
    destruct Hfine as (_ & _ & Hf). destruct (Hf vr fl t (nth_error_In _ _ (proj1 Hv)) Hbody) as (Hid & Hpf & Hacc).
    assert (Hst' : within B (declare st [] :: st)) by (intros m p u [<-|Hin] Hi; [destruct Hi|apply (Hst m); assumption]).
    assert (Hm : means B st (variant_qname (t_attrs td) vr) (vlabel (t_attrs td) vr)).
    { apply prefixed_means; [exact Hcons|exact Hst|exact Hholds|apply (own_bound id td Htd)|exact Hid|exact Hpf]. }
    pose proof (means_extend B (proj1 Hcons) (declare st []) st _ _ Hst' Hm) as Hm'.
    destruct (means_label B (declare st [] :: st) _ _ Hst' Hm') as (L1 & L2 & L3 & _).
    assert (Hloc : n_local (rname (declare st [] :: st) (qname (variant_qname (t_attrs td) vr))) = variant_name vr)
      by (unfold elabel in L1; injection L1 as _ L1; exact L1).
    unfold k. rewrite reread_elem. cbn [map].
    assert (Hvf : variant_for vs (n_local (rname (declare st [] :: st) (qname (variant_qname (t_attrs td) vr)))) = Some (i, VbNew fl t))
      by (rewrite Hloc, (variant_for_first _ _ _ Hv), Hbody; reflexivity).
    assert (Hwr : (forall k, In k ks -> Writable (declare st [] :: st) k) -> Writable st (WElem (qname (variant_qname (t_attrs td) vr)) [] [] ks)).
    { intros Hk. apply w_elem; [apply Hm|exact L2|intros ? []|constructor|intros ? []|exact Hk]. }
    unfold payload_content in Hc. destruct (base_of t) as [s|uid] eqn:Hbt.
    - apply omap_some in Hc. destruct Hc as (u & Hu & ->). inversion Hs as [? ? Hl|]; subst.
      destruct (leaf_text x (fun t => clean t \/ t = "") s w u (fun u h => or_introl (proj1 h)) Hl Hu) as (Hc & Hp & _).
      match goal with |- context [reread_kids ?a ?b ?c] => set (K := reread_kids a b c) end.
      assert (Hn : K = [] /\ u = "" \/ K = [Txt u]).
      { unfold K. cbn [reread_kids String.append]. destruct Hc as [Hc| ->]; [right; apply clean_node; exact Hc|left; auto]. }
      split; [|split].
      + apply Hwr. intros k' [<-|[]]. constructor. destruct Hc as [Hc| ->]; [apply Hc|reflexivity].
      + eapply payload_simple; [exact Hvf|exact Hbt|]. destruct Hn as [[Hn _]|Hn]; rewrite Hn; eauto.
      + intros cur. cbn [payload_given]. rewrite Hvf, Hbt.
        destruct Hn as [[Hn He]|Hn]; rewrite Hn; [subst u|]; rewrite Hp; reflexivity.
    - inversion Hs as [|? ? Hsv]; subst.
      destruct (IHI w Hh uid ks (vlabel (t_attrs td) vr) (declare st [] :: st) _ Hsv Hc Hst' L1 L3 Hacc) as [Hw Hd].
      destruct (Hd (squash (declare st [] :: st))) as [Hd1 Hd2].
      split; [apply Hwr; exact Hw|]. split.
      + eapply payload_user; [exact Hvf|exact Hbt|exact Hd1].
      + intros cur. cbn [payload_given]. rewrite Hvf, Hbt, Hd2. reflexivity.
  Qed.

  (** The payload elements of a variant and what they are folded to. *)
  Lemma payload_round : forall id td vs d i vr t st h v ks,
    nth_error E id = Some td -> t_body td = DEnum vs d -> first_variant vs i vr -> v_body vr = VbNew false t ->
    within B st -> holds st (t_attrs td) -> height v < N ->
    PayloadSurvives x E d i t v ->
    enc_payload x (encode x E) h (variant_qname (t_attrs td) vr) false t v = Some ks ->
    (forall k, In k ks -> is_elem k /\ Writable st k /\ PayloadFits x E af ff vs (reread st k)) /\
    obind (ofold (payload_given x Dec vs) (map (reread st) ks) None) (fun o => OOk (or_default d o)) = OOk (VVar i [v]).
  Proof.
    intros id td vs d i vr t st h v ks Htd Hb Hv Hbody Hst Hholds Hh Hs He.
    pose proof (fun w ks => payload_item_round id td vs d i vr false t st w ks Htd Hb Hv Hbody Hst Hholds) as Hitem. cbv zeta in Hitem.
    assert (Hone : forall b w, base_of t = b -> height w < N -> InsideSurvives x E b w ->
      SpecEnc.omap (fun ks => [WElem (qname (variant_qname (t_attrs td) vr)) [] [] ks]) (payload_content b w) = Some ks ->
      (forall k, In k ks -> is_elem k /\ Writable st k /\ PayloadFits x E af ff vs (reread st k)) /\
      ofold (payload_given x Dec vs) (map (reread st) ks) None = store t i w None).
    { intros b w <- Hw Hsv Hc. apply omap_some in Hc. destruct Hc as (c & Hc & ->).
      destruct (Hitem w c Hw Hsv Hc) as (H1 & H2 & H3). split.
      - intros k [<-|[]]. split; [exact I|]. split; assumption.
      - cbn [map ofold]. rewrite H3. destruct t; reflexivity. }
    destruct Hs as [d i b v Hin|d i b v Hin|d i b ->|d i b l Hne Hin|d i b ->].
    - assert (Hc : SpecEnc.omap (fun ks => [WElem (qname (variant_qname (t_attrs td) vr)) [] [] ks]) (payload_content b v) = Some ks).
      { unfold enc_payload in He. destruct b as [s|uid]; [rewrite <- simple_content; exact He|].
        rewrite <- payload_item_content by exact Hin. exact He. }
      destruct (Hone b v eq_refl Hh Hin Hc) as [H1 H2]. split; [exact H1|]. rewrite H2. reflexivity.
    - assert (Hc : SpecEnc.omap (fun ks => [WElem (qname (variant_qname (t_attrs td) vr)) [] [] ks]) (payload_content b v) = Some ks).
      { unfold enc_payload in He. rewrite <- payload_item_content by exact Hin. exact He. }
      destruct (Hone b v eq_refl ltac:(cbn in Hh; lia) Hin Hc) as [H1 H2]. split; [exact H1|]. rewrite H2. reflexivity.
    - injection He as <-. split; [intros ? []|reflexivity].
    - unfold enc_payload in He.
      assert (Hbelow : forall w, In w l -> height w < N).
      { intros w Hw. apply height_in in Hw. cbn in Hh. lia. }
      assert (Hall : forall l0 ks0, (forall w, In w l0 -> height w < N) -> (forall w, In w l0 -> InsideSurvives x E b w) ->
        oconcat (enc_payload_item x (encode x E) (variant_qname (t_attrs td) vr) b) l0 = Some ks0 ->
        (forall k, In k ks0 -> is_elem k /\ Writable st k /\ PayloadFits x E af ff vs (reread st k)) /\
        (forall done, ofold (payload_given x Dec vs) (map (reread st) ks0) (Some (VVar i [VVec done])) = OOk (Some (VVar i [VVec (done ++ l0)]))) /\
        (l0 <> [] -> ofold (payload_given x Dec vs) (map (reread st) ks0) None = OOk (Some (VVar i [VVec l0])))).
      { induction l0 as [|w l0 IH]; intros ks0 Hb0 Hi0 Ho; cbn [oconcat] in Ho.
        - injection Ho as <-. split; [intros ? []|]. split; [intros; rewrite app_nil_r; reflexivity|congruence].
        - apply oapp_some in Ho. destruct Ho as (p & r & Hp & Hr & ->).
          rewrite payload_item_content in Hp by (apply Hi0; left; reflexivity).
          apply omap_some in Hp. destruct Hp as (c & Hc & ->).
          destruct (Hitem w c (Hb0 w (or_introl eq_refl)) (Hi0 w (or_introl eq_refl)) Hc) as (H1 & H2 & H3).
          destruct (IH r) as (G1 & G2 & _); [intros; apply Hb0; right; assumption|intros; apply Hi0; right; assumption|exact Hr|].
          split; [intros k [<-|Hk]; [split; [exact I|split; assumption]|apply G1; exact Hk]|].
          cbn [app map ofold]. rewrite H3. split.
          + intros done. cbn [store]. rewrite H3. cbn [store]. rewrite Nat.eqb_refl. cbn [obind]. rewrite G2, <- app_assoc. reflexivity.
          + intros _. cbn [store obind]. rewrite G2. reflexivity. }
      destruct (Hall l ks Hbelow Hin He) as (H1 & _ & H3). split; [exact H1|]. rewrite H3 by exact Hne. reflexivity.
    - injection He as <-. split; [intros ? []|reflexivity].
  Qed.

  Lemma accepts_enum : forall id td vs d n, nth_error E id = Some td -> t_body td = DEnum vs d ->
    accepts E id (elabel n) -> n_ns n <> Some "" ->
    bad_namespace (t_attrs td) n = None /\ (ya_tag (t_attrs td) = None -> variant_for vs (n_local n) = None).
  Proof.
    intros id td vs d n Htd Hb Hacc Hn. specialize (Hacc td Htd). rewrite Hb in Hacc. destruct Hacc as [H1 H2]. split.
    - apply bad_namespace_none. intros u Hu. unfold elabel in H1. rewrite Hu in H1. cbn [fst] in H1.
      destruct H1 as [->|H1]; [congruence|exact H1].
    - intros Ht. apply variant_for_none. apply (H2 Ht).
  Qed.

  (** Untagged enums: content and value. *)
  Lemma unit_round : forall id td vs d i vr n a m, nth_error E id = Some td -> t_body td = DEnum vs d ->
    ya_tag (t_attrs td) = None -> first_variant vs i vr -> v_body vr = VbUnit ->
    accepts E id (elabel n) -> n_ns n <> Some "" ->
    FitsE id (Elem n a m [Txt (variant_name vr)]) /\ Dec id (Elem n a m [Txt (variant_name vr)]) = OOk (VVar i []).
  Proof.
    intros id td vs d i vr n a m Htd Hb Htag Hv Hu Hacc Hn.
    destruct (accepts_enum id td vs d n Htd Hb Hacc Hn) as [H1 H2]. split.
    - eapply fits_unit; [exact Htd|exact Hb|exact Htag|apply H2; exact Htag|].
      rewrite (variant_for_first _ _ _ Hv), Hu. intros (? & ? & ? & ? & Hx & _). discriminate.
    - cbn [decode]. rewrite Htd, Hb, H1, Htag. unfold text_variant. rewrite (variant_for_first _ _ _ Hv), Hu. reflexivity.
  Qed.
  Lemma payload_value : forall id td vs d i n a m st ks v, nth_error E id = Some td -> t_body td = DEnum vs d ->
    ya_tag (t_attrs td) = None -> accepts E id (elabel n) -> n_ns n <> Some "" ->
    (forall k, In k ks -> is_elem k /\ Writable st k /\ PayloadFits x E af ff vs (reread st k)) ->
    obind (ofold (payload_given x Dec vs) (map (reread st) ks) None) (fun o => OOk (or_default d o)) = OOk (VVar i [v]) ->
    FitsE id (Elem n a m (reread_kids st ks "")) /\ Dec id (Elem n a m (reread_kids st ks "")) = OOk (VVar i [v]).
  Proof.
    intros id td vs d i n a m st ks v Htd Hb Htag Hacc Hn Hk Ho.
    rewrite reread_kids_all by (intros k Hin; apply Hk; exact Hin).
    destruct (accepts_enum id td vs d n Htd Hb Hacc Hn) as [H1 H2].
    assert (Hnt : forall s, map (reread st) ks <> [Txt s]).
    { intros s Hx. destruct ks as [|k ks]; [discriminate|]. cbn [map] in Hx. injection Hx as Hx _.
      destruct (Hk k (or_introl eq_refl)) as [He _]. destruct k; try destruct He. discriminate. }
    split.
    - eapply fits_payload; [exact Htd|exact Hb|exact Htag|apply H2; exact Htag|exact Hnt|].
      intros k Hin. apply in_map_iff in Hin. destruct Hin as (w & <- & Hin). apply Hk. exact Hin.
    - cbn [decode]. rewrite Htd, Hb, H1, Htag. rewrite <- Ho.
      destruct (map (reread st) ks) as [|[|s] [|]] eqn:Hm; try reflexivity. exfalso. apply (Hnt s). reflexivity.
  Qed.

  Lemma prim_value : forall id td k n a m u v, nth_error E id = Some td -> t_body td = DPrim k ->
    (clean u \/ u = "") -> parse_prim x (t_name td) k u = Ok v ->
    FitsE id (Elem n a m (text_node u)) /\ Dec id (Elem n a m (text_node u)) = OOk v.
  Proof.
    intros id td k n a m u v Htd Hb Hu Hp.
    assert (Hn : text_node u = [Txt u] \/ text_node u = [] /\ u = "").
    { destruct Hu as [Hu| ->]; [left; apply clean_node; exact Hu|right; auto]. }
    split.
    - eapply fits_prim; [exact Htd|exact Hb|]. destruct Hn as [-> | [-> _]]; eauto.
    - cbn [decode]. rewrite Htd, Hb. destruct Hn as [-> | [-> ->]]; rewrite Hp; reflexivity.
  Qed.

  (** ** Only the content *)
  Lemma inside_step : forall w, height w <= N -> inside_works w.
  Proof.
    intros w Hh id p l st n Hs He Hst Hl Hn Hacc. subst l. rewrite encode_eq in He. unfold enc_type in He.
    assert (Hh0 : forall td, ya_namespaces (t_attrs td) = [] -> holds st (t_attrs td)).
    { intros td Hns q u Hin. unfold own_bindings in Hin. rewrite Hns in Hin. destruct Hin. }
    inversion Hs as [b id' td fs vs Hty Hns Hf|b id' td vs d i vr Htd Hb Htag Hv Hu Hbare Hc| 
      |b id' td vs d i vr fl t v Htd Hb Htag Hv Hbody Hfl Hvf Hns Hp|b id' td k v Htd Hb Hp]; subst.
    - destruct Hty as [Htd Hb]. rewrite Htd, Hb in He. unfold enc_content in He. rewrite Hb in He.
      assert (Hbelow : forall v, In v vs -> height v < N) by (intros v Hv; apply height_in in Hv; cbn in Hh; lia).
      pose proof (fun m => struct_round true id td fs vs st [] n m p (conj Htd Hb) Hbelow Hst (Hh0 td (Hns eq_refl)) Hf He
        (fun _ => eq_refl) ltac:(discriminate) Hacc) as Hr.
      split; [apply (Hr [])|]. intros m. apply (Hr m).
    - rewrite Htd, Hb in He. unfold enc_content in He. rewrite Hb, (proj1 Hv) in He. unfold enc_variant in He.
      rewrite Hu, Htag, (bare_name _ _ Hbare) in He. injection He as <-.
      split; [intros k [<-|[]]; constructor; apply Hc|]. intros m. cbn [reread_kids String.append]. rewrite (clean_node _ Hc).
      eapply unit_round; eassumption.
    - rewrite Htd, Hb in He. unfold enc_content in He. rewrite Hb, (proj1 Hv) in He. unfold enc_variant in He.
      rewrite Hbody, Hvf in He. cbn [orb] in He.
      destruct (payload_round id td vs d i vr t st Inside v p Htd Hb Hv Hbody Hst (Hh0 td (Hns eq_refl)) ltac:(cbn in Hh; lia) Hp He) as [H1 H2].
      split; [intros k Hk; apply H1; exact Hk|]. intros m. eapply payload_value; eassumption.
    - rewrite Htd, Hb in He. apply omap_some in He. destruct He as (u & Hu & ->).
      destruct (prim_text x clean _ _ _ _ (fun u h => proj1 h) Hp Hu) as [Hc Hparse].
      split.
      + intros j [<-|[]]. constructor. destruct Hc as [Hc| ->]; [apply Hc|reflexivity].
      + intros m. cbn [reread_kids String.append]. eapply prim_value; eassumption.
  Qed.

  (** ** Inside an element *)
  Lemma scope_of : forall id td st, nth_error E id = Some td -> within B st ->
    within B (declare st (declared (t_attrs td)) :: st) /\ holds (declare st (declared (t_attrs td)) :: st) (t_attrs td) /\
    (forall p, In p (declare st (declared (t_attrs td))) -> good_decl p).
  Proof.
    intros id td st Htd Hst. destruct Hsup as [[Hf Hd] _].
    assert (Hin : forall pu, In pu (declared (t_attrs td)) -> In pu B).
    { intros pu H. apply (own_bound id td Htd). apply declared_in. exact H. }
    split; [apply declare_within; assumption|]. split.
    - intros p u H. destruct (ns_extend_has (own_bindings (t_attrs td)) [] p u H) as [w Hw].
      change (In (p, w) (declared (t_attrs td))) in Hw. rewrite (declare_has B Hf st _ p w Hst Hin Hw). f_equal.
      apply (Hf p); [apply Hin; exact Hw|apply (own_bound id td Htd); exact H].
    - intros [p u] H. apply declare_in in H. apply (Hd p u). apply Hin. exact H.
  Qed.

  Lemma written_step : forall w, height w <= N -> written_works w.
  Proof.
    intros w Hh o id q p l st Hs He Hst Hname Hmn Hacc. rewrite encode_eq in He. unfold enc_type in He.
    destruct Hsup as [Hcons Hall].
    (* the pieces common to structs and enums *)
    assert (Helem : forall td own child ks, nth_error E id = Some td -> match t_body td with DPrim _ => False | _ => True end ->
      enc_start x (encode x E) (encode_attrs x E) td w = Some (own, child, []) ->
      enc_content x (encode x E) (Under o) td w = Some ks ->
      let st' := declare st (declared (t_attrs td)) :: st in
      (within B st' -> holds st' (t_attrs td) -> forall n, elabel n = l -> n_ns n <> Some "" -> 
        (forall t, In t (own ++ child) -> good_attr st' t) /\
        NoDup (map (fun t => name_repr (at_name t)) (own ++ child)) /\
        (forall k, In k ks -> Writable st' k) /\
        forall m, FitsE id (Elem n (map (rattr st') (own ++ child)) m (reread_kids st' ks "")) /\
                  Dec id (Elem n (map (rattr st') (own ++ child)) m (reread_kids st' ks "")) = OOk w) ->
      exists a m c, p = [WElem (qname q) a m c] /\ Writable st (WElem (qname q) a m c) /\
        elabel (rname (declare st m :: st) (qname q)) = l /\
        FitsE id (reread st (WElem (qname q) a m c)) /\ Dec id (reread st (WElem (qname q) a m c)) = OOk w).
    { intros td own child ks Htd Hnp Hstart Hcont st' Hrest.
      assert (Hfl : ya_flatten (t_attrs td) = false).
      { specialize (Hall id td Htd). destruct (t_body td); [apply Hall|apply Hall|destruct Hnp]. }
      assert (Hp : p = [WElem (qname q) (own ++ child) (declared (t_attrs td)) ks]).
      { assert (Hq : opt_default (ser_root td) o = q).
        { rewrite <- (Hname td Htd). unfold type_root. destruct (t_body td); [reflexivity|reflexivity|destruct Hnp]. }
        rewrite Htd in He. destruct (t_body td); [| |destruct Hnp]; rewrite Hfl, Hstart, Hcont in He; injection He as <-; rewrite Hq; reflexivity. }
      destruct (scope_of id td st Htd Hst) as (S1 & S2 & S3). fold st' in S1, S2.
      assert (Hm : means B st' q l).
      { specialize (Hmn td Htd). unfold type_decls in Hmn. destruct (t_body td); [exact Hmn|exact Hmn|destruct Hnp]. }
      destruct (means_label B st' q l S1 Hm) as (L1 & L2 & L3 & _).
      destruct (Hrest S1 S2 _ L1 L3) as (R1 & R2 & R3 & R4).
      exists (own ++ child), (declared (t_attrs td)), ks. split; [exact Hp|]. fold st'. rewrite !reread_elem. fold st'.
      split; [apply w_elem; [apply Hm|exact L2|exact R1|exact R2|exact S3|exact R3]|].
      split; [exact L1|]. apply R4. }
    inversion Hs as [b id' td fs vs Hty Hns Hf|b id' td vs d i vr Htd Hb Htag Hv Hu Hbare Hc
      |id' td vs d tg i vr Htd Hb Htag Hv Hu Hleg
      |b id' td vs d i vr fl t v Htd Hb Htag Hv Hbody Hfl Hvf Hns Hp|b id' td k v Htd Hb Hp]; subst.
    - destruct Hty as [Htd Hb]. pose proof (Hall id td Htd) as Hfine. rewrite Hb in Hfine.
      assert (Hbelow : forall v, In v vs -> height v < N) by (intros v Hv; apply height_in in Hv; cbn in Hh; lia).
      rewrite Htd, Hb in He. rewrite (proj1 Hfine) in He. unfold enc_start in He. rewrite Hb in He.
      destruct (enc_tag x (encode x E) (encode_attrs x E) (t_attrs td) (VRec vs) fs vs) as [[[own child] ns]|] eqn:Ht; [|discriminate].
      destruct (enc_content x (encode x E) (Under o) td (VRec vs)) as [ks|] eqn:Hk; [|discriminate].
      pose proof Hk as Hks. unfold enc_content in Hks. rewrite Hb in Hks.
      assert (Hcn : child = [] /\ ns = []).
      { destruct (scope_of id td st Htd Hst) as (S1 & S2 & S3).
        destruct (tag_round x E (t_attrs td) fs _ Hcons (own_bound id td Htd) Hfine S2 (t_name td) (VRec vs) fs vs 0 own child ns (fun j f h => h) Hf Ht) as (-> & -> & _). auto. }
      destruct Hcn as [-> ->].
      apply (Helem td own [] ks Htd); [rewrite Hb; exact I|unfold enc_start; rewrite Hb; exact Ht|exact Hk|].
      intros S1 S2 n Hl Hn. rewrite app_nil_r.
      destruct (tag_round x E (t_attrs td) fs _ Hcons (own_bound id td Htd) Hfine S2 (t_name td) (VRec vs) fs vs 0 own [] [] (fun j f h => h) Hf Ht) as (_ & _ & its & _ & T2 & T3 & _).
      pose proof (fun m => struct_round false id td fs vs _ (map (rattr (declare st (declared (t_attrs td)) :: st)) own) n m ks (conj Htd Hb) Hbelow S1 S2 Hf Hks
        ltac:(discriminate) (fun _ => ex_intro _ own (conj Ht eq_refl)) ltac:(rewrite Hl; exact Hacc)) as Hr.
      split; [intros a Ha; apply (T2 a Ha)|]. split; [exact T3|]. split; [apply (Hr [])|]. intros m. apply (Hr m).
    - apply (Helem td [] [] [WTxt (variant_name vr)] Htd).
      + rewrite Hb. exact I.
      + unfold enc_start. rewrite Hb, (proj1 Hv), Htag. reflexivity.
      + unfold enc_content. rewrite Hb, (proj1 Hv). unfold enc_variant. rewrite Hu, Htag, (bare_name _ _ Hbare). reflexivity.
      + intros S1 S2 n Hl Hn. split; [intros ? []|]. split; [constructor|].
        split; [intros k [<-|[]]; constructor; apply Hc|]. intros m. cbn [reread_kids String.append]. rewrite (clean_node _ Hc).
        eapply unit_round; try eassumption. rewrite Hl. exact Hacc.
    - pose proof (Hall id td Htd) as Hfine. rewrite Hb in Hfine. destruct Hfine as (_ & Htg & _). destruct (Htg tg Htag) as [Hid Hx].
      apply (Helem td [] [Attr (Name tg None None) (variant_name vr)] [] Htd).
      + rewrite Hb. exact I.
      + unfold enc_start. rewrite Hb, (proj1 Hv), Htag. reflexivity.
      + unfold enc_content. rewrite Hb, (proj1 Hv). unfold enc_variant. rewrite Hu, Htag. reflexivity.
      + intros S1 S2 n Hl Hn. split.
        { intros a [<-|[]]. split; [apply good_plain; exact Hid|]. split; [exact I|].
          split; [apply andb_true_iff in Hleg; apply Hleg|]. split; [discriminate|]. intros _. exact Hx. }
        split; [constructor; [intros []|constructor]|]. split; [intros ? []|]. intros m. cbn [reread_kids]. rewrite empty_node. cbn [app map rattr n_prefix at_name at_value n_local].
        unfold rattr. cbn [n_prefix at_name at_value n_local]. rewrite (untab_legal _ Hleg).
        assert (Hvf : variant_for vs (variant_name vr) = Some (i, VbUnit)) by (rewrite (variant_for_first _ _ _ Hv), Hu; reflexivity).
        split.
        * eapply fits_tagged; [exact Htd|exact Hb|exact Htag|]. intros a b [<-|[]] _ <-. cbn [at_value]. right. eauto.
        * destruct (accepts_enum id td vs d n Htd Hb ltac:(rewrite Hl; exact Hacc) Hn) as [Hbad _].
          cbn [decode]. rewrite Htd, Hb, Hbad, Htag. cbn [find at_name n_local]. rewrite String.eqb_refl.
          cbn [at_value]. unfold text_variant. rewrite Hvf. reflexivity.
    - pose proof (Hall id td Htd) as Hfine. rewrite Hb in Hfine.
      rewrite Htd, Hb in He. rewrite (proj1 Hfine) in He.
      destruct (enc_start x (encode x E) (encode_attrs x E) td (VVar i [v])) as [[[own child] ns]|] eqn:Hstart; [|discriminate].
      destruct (enc_content x (encode x E) (Under o) td (VVar i [v])) as [ks|] eqn:Hk; [|discriminate].
      pose proof Hstart as Hstart'. unfold enc_start in Hstart'. rewrite Hb, (proj1 Hv), Htag in Hstart'. injection Hstart' as <- <- <-.
      apply (Helem td [] [] ks Htd); [rewrite Hb; exact I|exact Hstart|exact Hk|].
      intros S1 S2 n Hl Hn. unfold enc_content in Hk. rewrite Hb, (proj1 Hv) in Hk. unfold enc_variant in Hk.
      rewrite Hbody, Hvf in Hk. cbn [orb] in Hk.
      destruct (payload_round id td vs d i vr t _ _ v ks Htd Hb Hv Hbody S1 S2 ltac:(cbn in Hh; lia) Hp Hk) as [H1 H2].
      split; [intros ? []|]. split; [constructor|]. split; [intros k Hkk; apply H1; exact Hkk|].
      intros m. eapply payload_value; try eassumption. rewrite Hl. exact Hacc.
    - rewrite Htd, Hb in He. apply omap_some in He. destruct He as (u & Hu & ->). unfold text_elem.
      assert (Hq : opt_default (t_name td) o = q) by (rewrite <- (Hname td Htd); unfold type_root; rewrite Hb; reflexivity).
      rewrite Hq. clear Hq.
      destruct (prim_text x clean _ _ _ _ (fun u h => proj1 h) Hp Hu) as [Hc Hparse].
      assert (Hst' : within B (declare st [] :: st)) by (intros m p u' [<-|Hin] Hi; [destruct Hi|apply (Hst m); assumption]).
      assert (Hm : means B (declare st [] :: st) q l) by (specialize (Hmn td Htd); unfold type_decls in Hmn; rewrite Hb in Hmn; exact Hmn).
      destruct (means_label B (declare st [] :: st) q l Hst' Hm) as (L1 & L2 & L3 & _).
      exists [], [], [WTxt u]. split; [reflexivity|]. split.
      { apply w_elem; [apply Hm|exact L2|intros ? []|constructor|intros ? []|]. intros j [<-|[]]. constructor.
        destruct Hc as [Hc| ->]; [apply Hc|reflexivity]. }
      split; [exact L1|]. rewrite reread_elem. cbn [reread_kids String.append map]. eapply prim_value; eassumption.
  Qed.
  End Step.

  Lemma written_under : forall w, written_works w -> under_works x E w.
  Proof.
    intros w H id q p l st Hs He Hst Hm Hacc. apply (H (Some q) id q p l st Hs He Hst); [reflexivity| |exact Hacc].
    intros td Htd. apply means_extend; [apply Hsup| |exact Hm].
    unfold type_decls. destruct (t_body td); [apply (scope_of id td st Htd Hst)|apply (scope_of id td st Htd Hst)|].
    intros m p' u' [<-|Hin] Hi; [destruct Hi|apply (Hst m); assumption].
  Qed.

  Theorem values_survive : forall w, written_works w /\ inside_works w.
  Proof.
    assert (H : forall n w, height w < n -> written_works w /\ inside_works w).
    { induction n as [|n IH]; intros w Hw; [lia|].
      assert (IHU : forall v, height v < n -> under_works x E v) by (intros v Hv; apply written_under; apply IH; exact Hv).
      assert (IHI : forall v, height v < n -> inside_works v) by (intros v Hv; apply IH; exact Hv).
      split; [apply (written_step n); auto; lia|apply (inside_step n); auto; lia]. }
    intros w. apply (H (S (height w))). lia.
  Qed.
End Round.
