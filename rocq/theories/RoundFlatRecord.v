(** * Round trips of structs with flattened fields: the struct as a whole. *)
From Verif Require Import Str Num Xml XmlText Reader Schema De SpecTree SpecText SpecNum SpecTyped SpecStruct SpecSer SpecValue
  SpecEnc SpecRound SpecRoundFlat TreeFacts TreeProofs TextProofs ValueProofs StructProofs StructReads EncProofs SerProofs
  RoundNames RoundTexts RoundCore RoundFields RoundProofs SpecAlike InsertProofs AlikeTrees RewriteProofs RoundFlatCtx RoundFlatFields
  RoundFlatElem RoundFlatOwn RoundFlatStruct.
Open Scope list_scope.

Lemma flat_base : forall t id, t = TBase (BUser id) \/ t = TOpt (BUser id) -> base_of t = BUser id.
Proof. intros t id [-> | ->]; reflexivity. Qed.
Lemma flat_elem : forall f, flat_field f = true -> elem_field f -> False.
Proof. intros f H [Ha Hf]. unfold flat_field in H. rewrite Ha, Hf in H. discriminate. Qed.
Lemma flat_attr : forall f, flat_field f = true -> ya_attribute (f_attrs f) = false /\ ya_flatten (f_attrs f) = true.
Proof. intros f H. unfold flat_field in H. apply andb_true_iff in H. destruct H as [H1 H2]. apply negb_true_iff in H1. auto. Qed.
Lemma field_kinds : forall f, ya_attribute (f_attrs f) = true \/ elem_field f \/ flat_field f = true.
Proof. intros f. unfold elem_field, flat_field. destruct (ya_attribute (f_attrs f)), (ya_flatten (f_attrs f)); auto. Qed.

Lemma alike_inv : forall n a m ks t, AlikeTree (Elem n a m ks) t -> exists n' a' m' ks', t = Elem n' a' m' ks' /\
  same_expanded n n' /\ (forall l, values_of l a = values_of l a') /\ Forall2 AlikeTree ks ks'.
Proof. intros n a m ks t H. inversion H; subst. eauto 10. Qed.

Section Record.
  Variable x : ext.
  Variable E : env.
  Hypothesis Hok : all_ok E.
  Notation B := (bindings E).
  Let Hcons : consistent E := proj1 Hok.
  Let Hfun := proj1 Hcons.

  Variable N : nat.
  Hypothesis IH : forall w, height w < N -> content_works x E w.
  Variable L : nat.
  Hypothesis HL : N <= S L.
  Notation av := (attr_value_at x E (S (S L))).
  Notation fv := (flat_value_at x E (S (S L))).
  Notation af := (attr_fine_at x E (S (S L))).
  Notation ff := (flat_fine_at x E (S (S L))).
  Notation Dec := (decode x E av fv false).

  Variable b : bool.
  Variable id : nat.
  Variable td : typedef.
  Variable fs : list field.
  Variable vs : list value.
  Variable Ps : list (list wnode).
  Variable A : list attr.
  Variable st : nsstack.
  Notation ra := (t_attrs td).
  Notation self := (VRec vs).
  Notation W := (written_attrs x E b ra self).
  Hypothesis Hs : struct_type E id td fs.
  Hypothesis Hum : flattens fs = true -> Unmixed x E b ra self fs vs.
  Hypothesis Hvs : forall v, In v vs -> height v < N.
  Hypothesis Hlen : List.length vs = List.length fs.
  Hypothesis HlenP : List.length Ps = List.length fs.
  Hypothesis Hparts : forall j f v P, nth_error fs j = Some f -> nth_error vs j = Some v -> nth_error Ps j = Some P ->
    FieldLasts x E b self f v /\ enc_field x (encode x E) ra self f v = Some P.
  Hypothesis Hst : within B st.
  Hypothesis Hholds : holds st ra.
  Hypothesis HA : if b then A = [] else A = concat (map (own_attr x E ra self) (combine fs vs)) ++ concat (map (child_attr x E ra self) (combine fs vs)).
  Hypothesis Htag : b = false -> forall j f v, nth_error fs j = Some f -> nth_error vs j = Some v -> ya_attribute (f_attrs f) = true ->
    exists a, enc_attr x (encode x E) ra self f v = Some a.
  Hypothesis Hflat : b = false -> forall j f v uid, nth_error fs j = Some f -> nth_error vs j = Some v -> flat_field f = true -> f_ty f = TBase (BUser uid) ->
    exists a m, encode_attrs x E uid v = Some (a, m) /\ forall q u, In (q, u) m -> nss_get st q = Some u.

  Lemma fine : struct_ok E ra fs.
  Proof. destruct Hs as [Htd Hb]. pose proof (proj2 Hok id td Htd) as H. rewrite Hb in H. exact H. Qed.
  Lemma ra_bound : forall pu, In pu (own_bindings ra) -> In pu B.
  Proof. apply (own_bound E id td). apply Hs. Qed.
  Lemma flat_some : forall j f, nth_error fs j = Some f -> flat_field f = true -> flattens fs = true.
  Proof. intros j f Hj Hf. apply existsb_exists. exists f. split; [eapply nth_error_In; eassumption|exact Hf]. Qed.
  Lemma at_field : forall j f, nth_error fs j = Some f -> exists v P, nth_error vs j = Some v /\ nth_error Ps j = Some P.
  Proof.
    intros j f Hj. apply nth_lt in Hj. destruct (nth_of _ vs j ltac:(lia)) as [v Hv]. destruct (nth_of _ Ps j ltac:(lia)) as [P HP]. eauto.
  Qed.
  Lemma nodes_of : forall j f v P, nth_error fs j = Some f -> nth_error vs j = Some v -> nth_error Ps j = Some P ->
    written_nodes x E ra self f v = P.
  Proof. intros j f v P H1 H2 H3. unfold written_nodes. rewrite (proj2 (Hparts j f v P H1 H2 H3)). reflexivity. Qed.
  Lemma pair_of : forall i j f g v w uid, i <> j -> nth_error fs i = Some f -> nth_error vs i = Some v -> nth_error fs j = Some g ->
    nth_error vs j = Some w -> flat_field f = true -> base_of (f_ty f) = BUser uid ->
    (elem_field g -> forall n a m ks, In (WElem n a m ks) (written_nodes x E ra self f v) -> resolve B n <> flabel ra g) /\
    (ya_text (f_attrs g) = true -> ntexts (written_nodes x E ra self f v) = 0) /\
    (ya_attribute (f_attrs g) = true -> forall a, In a (W f v) -> n_local (at_name a) <> field_name g) /\
    (flat_field g = true \/ ya_text (f_attrs g) = true -> forall k, In k (written_nodes x E ra self g w) -> Ignores E uid k) /\
    (forall a, In a (W g w) -> ~ claims_attr E uid (n_local (at_name a))).
  Proof.
    intros i j f g v w uid Hij H1 H2 H3 H4 H5 H6.
    apply (um_pair _ _ _ _ _ _ _ (Hum (flat_some i f H1 H5)) i j f g v w uid); assumption.
  Qed.

  (** ** Flattened fields *)
  Inductive FlatPart (f : field) (v : value) (P : list wnode) (uid : nat) : Prop :=
  | ft_some : forall w b' m, (f_ty f = TBase (BUser uid) /\ v = w \/ f_ty f = TOpt (BUser uid) /\ v = VOpt (Some w)) ->
      height w <= L -> spread E uid w -> Wrote E uid w P (W f v) st -> Returns x E L uid w P (W f v) st ->
      start_data x E b' uid w (W f v) m -> FlatPart f v P uid
  | ft_none : forall td' gs g t, f_ty f = TOpt (BUser uid) -> v = VOpt None -> struct_type E uid td' gs -> flattens gs = false ->
      In g gs -> f_ty g = TBase t -> ya_default (f_attrs g) = None -> P = [] -> W f v = [] -> FlatPart f v P uid.

  Lemma flat_part : forall j f v P, nth_error fs j = Some f -> nth_error vs j = Some v -> nth_error Ps j = Some P ->
    flat_field f = true -> exists uid, (f_ty f = TBase (BUser uid) \/ f_ty f = TOpt (BUser uid)) /\ FlatPart f v P uid.
  Proof.
    intros j f v P Hj Hv HP Hff. destruct (Hparts j f v P Hj Hv HP) as [Hla He]. pose proof (Hvs v (nth_error_In _ _ Hv)) as Hh.
    destruct (flat_attr f Hff) as [Ha Hfl].
    destruct fine as (_ & Hfi & _). specialize (Hfi f (nth_error_In _ _ Hj)). rewrite Ha, Hfl in Hfi. destruct Hfi as (Htx & Hcd & uid & Hty & _).
    exists uid. split; [exact Hty|].
    assert (Hwork : forall w b' m, (f_ty f = TBase (BUser uid) /\ v = w \/ f_ty f = TOpt (BUser uid) /\ v = VOpt (Some w)) ->
      height w < N -> spread E uid w -> Lasts x E b' uid w -> encode x E uid w Inside = Some P -> start_data x E b' uid w (W f v) m ->
      (forall q u, In (q, u) m -> nss_get st q = Some u) -> FlatPart f v P uid).
    { intros w b' m H1 H2 H3 H4 H5 H6 H7. assert (Hw : height w <= L) by lia.
      destruct (IH w H2 L Hw b' uid P (W f v) m st H4 H5 H6 Hst H7) as [G1 G2]. eapply ft_some; eassumption. }
    assert (Hat : f_ty f = TOpt (BUser uid) -> W f v = []).
    { intros Ht. unfold written_attrs. rewrite Ha, Hfl, Ht. destruct b; reflexivity. }
    unfold enc_field in He. rewrite Ha, Htx, Hcd, Hfl in He.
    remember self as s0 eqn:Hself. remember b as b0 eqn:Hb0.
    destruct Hla as [b1 self f t Hnf Hty'|b1 self f t Hty'|self f v Ha' _|b1 self f v Ha' _ _|b1 self f v Ha' _ Hfl' _ _
      |self f v t w Ha' _ _ _|b1 self f v t Ha' Ht Hty' Hc|b1 self f t Ha' Ht Hns Hcd' Hty' Hc Hcl|b1 self f v l Ha' Ht Hfl' Hns Hcd' Hit Hl
      |b1 self f id' v _ Hty' Hns Hsp Hv'|b1 self f id' v _ Hty' Hns Hsp Hv'|b1 self f id' td' gs g t _ Hty' Hst' Hnf Hg Hgt Hgd]; subst self;
      try congruence.
    - exfalso. destruct Hty; congruence.
    - rewrite Hty' in Hty. assert (id' = uid) by (destruct Hty as [Hty|Hty]; congruence). subst id'.
      assert (Hlo : left_out x (VRec vs) v f true = false) by (apply bool_false; intros Hlo; apply left_out_suppressed in Hlo; tauto).
      rewrite Hlo, Hty' in He. destruct b1.
      + apply (Hwork v true []); auto; [|intros ? ? []]. cbn [start_data]. split; reflexivity.
      + destruct (Hflat eq_refl j f v uid Hj Hv Hff Hty') as (a & m & Hea & Hm). apply (Hwork v false m); auto.
        cbn [start_data]. unfold written_attrs. rewrite Ha, Hfl, Hty', Hea. reflexivity.
    - rewrite Hty' in Hty. assert (id' = uid) by (destruct Hty as [Hty|Hty]; congruence). subst id'.
      assert (Hlo : left_out x (VRec vs) (VOpt (Some v)) f true = false) by (apply bool_false; intros Hlo; apply left_out_suppressed in Hlo; tauto).
      rewrite Hlo, Hty' in He. apply (Hwork v true []); auto; [cbn in Hh; lia| |intros ? ? []]. cbn [start_data]. rewrite (Hat Hty'). split; reflexivity.
    - rewrite Hty' in Hty. assert (id' = uid) by (destruct Hty as [Hty|Hty]; congruence). subst id'.
      rewrite Hty' in He. eapply ft_none; eauto; [destruct (left_out x (VRec vs) (VOpt None) f true); congruence|]. rewrite <- Hb0. auto.
  Qed.

  (** ** The nodes of one field *)
  Lemma attr_nodes : forall j f v P, nth_error fs j = Some f -> nth_error vs j = Some v -> nth_error Ps j = Some P ->
    ya_attribute (f_attrs f) = true -> P = [].
  Proof.
    intros j f v P H1 H2 H3 Ha. destruct (Hparts j f v P H1 H2 H3) as [_ He]. unfold enc_field in He. rewrite Ha in He. congruence.
  Qed.
  Lemma own_nodes : forall j f v P, nth_error fs j = Some f -> nth_error vs j = Some v -> nth_error Ps j = Some P ->
    elem_field f -> exists it, OwnPart x E (S L) ra fs st j f P it /\ field_result x (t_name td) f it = Ok v.
  Proof.
    intros j f v P H1 H2 H3 Hel. destruct (Hparts j f v P H1 H2 H3) as [Hla He].
    apply (own_part x E Hok N IH (S L) HL ra fs st ra_bound fine Hst Hholds (t_name td) b self j f v P); auto.
    - apply Hvs. eapply nth_error_In; eassumption.
    - intros Hfl uid l w Hb Hit Hw Hns. apply (um_spread _ _ _ _ _ _ _ (Hum Hfl) j f v uid l w); assumption.
  Qed.
  Lemma nodes_neat : forall j f v P, nth_error fs j = Some f -> nth_error vs j = Some v -> nth_error Ps j = Some P ->
    forall k, In k P -> Neat B st k.
  Proof.
    intros j f v P H1 H2 H3 k Hk. destruct (field_kinds f) as [Ha|[Hel|Hff]].
    - rewrite (attr_nodes j f v P H1 H2 H3 Ha) in Hk. destruct Hk.
    - destruct (own_nodes j f v P H1 H2 H3 Hel) as (it & Hp & _). destruct Hp as [p it Hp|t Ht Hc Hty|Ht].
      + destruct (forall2_in _ _ _ _ _ Hp k Hk) as (w & _ & _ & Hn & _). exact Hn.
      + destruct Hk as [<-|[]]. constructor. left. exact Hc.
      + destruct Hk as [<-|[]]. constructor. right. reflexivity.
    - destruct (flat_part j f v P H1 H2 H3 Hff) as (uid & _ & Hp). destruct Hp as [w b' m _ _ _ Hw _ _|? ? ? ? _ _ _ _ _ _ _ -> _]; [|destruct Hk].
      apply Hw. exact Hk.
  Qed.
  Lemma all_neat : forall k, In k (concat Ps) -> Neat B st k.
  Proof.
    intros k Hk. apply in_concat in Hk. destruct Hk as (P & HP & Hk). apply In_nth_error in HP. destruct HP as [j HP].
    destruct (nth_of _ fs j) as [f Hf]; [rewrite <- HlenP; eapply nth_lt; eassumption|]. destruct (at_field j f Hf) as (v & P' & Hv & _).
    apply (nodes_neat j f v P Hf Hv HP k Hk).
  Qed.
  Lemma all_texts : ntexts (concat Ps) <= 1.
  Proof.
    assert (Hd : flattens fs = true \/ flattens fs = false) by (destruct (flattens fs); auto). destruct Hd as [Hfl|Hfl].
    - pose proof (um_text _ _ _ _ _ _ _ (Hum Hfl)) as H.
      replace (concat Ps) with (flat_map (fun p => written_nodes x E ra self (fst p) (snd p)) (combine fs vs)); [exact H|].
      rewrite flat_map_concat_map. f_equal. clear H Hfl.
      assert (Hn : forall j P, nth_error Ps j = Some P -> nth_error (map (fun p => written_nodes x E ra self (fst p) (snd p)) (combine fs vs)) j = Some P).
      { intros j P HP. destruct (nth_of _ fs j) as [f Hf]; [rewrite <- HlenP; eapply nth_lt; eassumption|]. destruct (at_field j f Hf) as (v & P' & Hv & _).
        rewrite nth_error_map, (nth_combine _ _ _ _ j f v Hf Hv). cbn [option_map fst snd]. rewrite (nodes_of j f v P Hf Hv HP). reflexivity. }
      assert (Hl : List.length (map (fun p => written_nodes x E ra self (fst p) (snd p)) (combine fs vs)) = List.length Ps)
        by (rewrite map_length, combine_length; lia).
      revert Hn Hl. generalize (map (fun p => written_nodes x E ra self (fst p) (snd p)) (combine fs vs)). clear. induction Ps as [|P Qs IHp]; intros l Hn Hl.
      + destruct l; [reflexivity|discriminate].
      + destruct l as [|Q l]; [discriminate|]. pose proof (Hn 0 P eq_refl) as H0. injection H0 as ->. f_equal. apply IHp; [|cbn in Hl; lia].
        intros j R Hj. apply (Hn (S j) R Hj).
    - assert (Hzero : forall j f v P, nth_error fs j = Some f -> nth_error vs j = Some v -> nth_error Ps j = Some P ->
        ntexts P <= if ya_text (f_attrs f) then 1 else 0).
      { intros j f v P H1 H2 H3. destruct (field_kinds f) as [Ha|[Hel|Hff]].
        - rewrite (attr_nodes j f v P H1 H2 H3 Ha). cbn. lia.
        - destruct (own_nodes j f v P H1 H2 H3 Hel) as (it & Hp & _). destruct Hp as [p it Hp|t Ht Hc Hty|Ht].
          + rewrite ntexts_elems; [lia|]. intros k Hk. destruct (forall2_in _ _ _ _ _ Hp k Hk) as (w & _ & He & _). exact He.
          + rewrite Ht. unfold ntexts. cbn. destruct (negb (String.eqb t "")); cbn; lia.
          + rewrite Ht. cbn. lia.
        - pose proof (flat_some j f H1 Hff). congruence. }
      destruct (find (fun f => ya_text (f_attrs f)) fs) as [f0|] eqn:Hfind.
      + apply find_some in Hfind. destruct Hfind as [Hin Ht0]. apply In_nth_error in Hin. destruct Hin as [i Hi]. apply (ntexts_one Ps i).
        intros j P HP. destruct (nth_of _ fs j) as [f Hf]; [rewrite <- HlenP; eapply nth_lt; eassumption|]. destruct (at_field j f Hf) as (v & P' & Hv & _).
        specialize (Hzero j f v P Hf Hv HP). destruct (Nat.eqb_spec j i) as [->|Hne]; [destruct (ya_text (f_attrs f)); lia|].
        destruct (ya_text (f_attrs f)) eqn:Ht; [|exact Hzero]. exfalso. apply Hne. destruct fine as (_ & _ & Hd).
        apply (Hd j i f f0 Hf Hi). auto.
      + apply (ntexts_one Ps 0). intros j P HP. destruct (nth_of _ fs j) as [f Hf]; [rewrite <- HlenP; eapply nth_lt; eassumption|].
        destruct (at_field j f Hf) as (v & P' & Hv & _). specialize (Hzero j f v P Hf Hv HP).
        pose proof (find_none _ _ Hfind f (nth_error_In _ _ Hf)) as Hno. cbn beta in Hno. rewrite Hno in Hzero. destruct (Nat.eqb j 0); lia.
  Qed.

  (** ** Attributes *)
  Lemma attr_part : forall j f v, nth_error fs j = Some f -> nth_error vs j = Some v -> ya_attribute (f_attrs f) = true ->
    n_local (qname (field_qname ra f)) = field_name f /\
    ((W f v = [] /\ field_result x (t_name td) f [] = Ok v) \/
     exists t w, W f v = [Attr (qname (field_qname ra f)) t] /\ legal_attr t = true /\
      good_attr st (Attr (qname (field_qname ra f)) t) /\
      (exists b, f_ty f = TBase b \/ f_ty f = TOpt b) /\
      attr_item x av (base_of (f_ty f)) t = OOk w /\
      (forall id, base_of (f_ty f) = BUser id -> af id t) /\
      field_result x (t_name td) f [w] = Ok v).
  Proof.
    intros j f v Hj Hv Ha. destruct (at_field j f Hj) as (v' & P & Hv' & HP). assert (v' = v) by congruence. subst v'.
    destruct (Hparts j f v P Hj Hv HP) as [Hla _]. pose proof (nth_error_In _ _ Hj) as Hin.
    destruct (attr_name' E ra fs st Hcons ra_bound fine Hholds f Hin Ha) as [Hn Hg]. split; [exact Hn|].
    destruct b.
    - left. split; [reflexivity|]. apply (lost_attr' x E (t_name td) self f v Hla Ha).
    - destruct (Htag eq_refl j f v Hj Hv Ha) as [a He].
      assert (HW : written_attrs x E false ra self f v = a) by (unfold written_attrs; rewrite Ha, He; reflexivity). rewrite HW.
      destruct (attr_round' x E ra fs (t_name td) (S L) self f v a Hin Ha Hla He) as [H|(t & w & H1 & H2 & H3 & H4 & H5 & H6)]; [left; exact H|].
      right. exists t, w. split; [exact H1|]. split; [exact H2|]. split; [|auto]. apply Hg. unfold legal_attr in H2. apply andb_true_iff in H2. apply H2.
  Qed.
  Lemma flat_spliced : forall j f uid, nth_error fs j = Some f -> flat_field f = true -> base_of (f_ty f) = BUser uid -> Spliced E id uid.
  Proof. intros j f uid Hj Hf Hb. eapply sp_field; [exact Hs|eapply nth_error_In; exact Hj|exact Hf|exact Hb]. Qed.
  Lemma elem_no_attrs : forall f v, elem_field f -> W f v = [].
  Proof. intros f v [Ha Hf]. unfold written_attrs. rewrite Ha, Hf. destruct b; reflexivity. Qed.
  Lemma attr_claim : forall j f, nth_error fs j = Some f -> ya_attribute (f_attrs f) = true -> claims_attr E id (field_name f).
  Proof.
    intros j f Hj Ha. destruct Hs as [Htd Hb]. exists id, td. split; [left; reflexivity|]. split; [exact Htd|]. rewrite Hb.
    exists f. split; [eapply nth_error_In; exact Hj|]. split; [exact Ha|reflexivity].
  Qed.
  Lemma flat_claim : forall j f v c uid, nth_error fs j = Some f -> nth_error vs j = Some v -> flat_field f = true ->
    base_of (f_ty f) = BUser uid -> In c (W f v) ->
    good_attr st c /\ legal_attr (at_value c) = true /\ claims_attr E uid (n_local (at_name c)).
  Proof.
    intros j f v c uid Hj Hv Hff Hb Hc. destruct (at_field j f Hj) as (v' & P & Hv' & HP). assert (v' = v) by congruence. subst v'.
    destruct (flat_part j f v P Hj Hv HP Hff) as (uid' & Hty & Hp). apply flat_base in Hty. assert (uid' = uid) by congruence. subst uid'.
    destruct Hp as [w b' m _ _ _ Hw _ _|? ? ? ? _ _ _ _ _ _ _ _ Hw]; [apply Hw; exact Hc|rewrite Hw in Hc; destruct Hc].
  Qed.
  Lemma flat_typed : forall j f, nth_error fs j = Some f -> flat_field f = true -> exists uid, base_of (f_ty f) = BUser uid.
  Proof.
    intros j f Hj Hf. destruct (at_field j f Hj) as (v & P & Hv & HP). destruct (flat_part j f v P Hj Hv HP Hf) as (uid & Hty & _).
    exists uid. apply flat_base. exact Hty.
  Qed.
  Lemma attr_written : forall j f v c, nth_error fs j = Some f -> nth_error vs j = Some v -> ya_attribute (f_attrs f) = true ->
    In c (W f v) -> n_local (at_name c) = field_name f /\ good_attr st c /\ legal_attr (at_value c) = true.
  Proof.
    intros j f v c Hj Hv Ha Hc. destruct (attr_part j f v Hj Hv Ha) as [Hn [[Hw _]|(t & w & Hw & Hl & Hg & _)]]; rewrite Hw in Hc.
    - destruct Hc.
    - destruct Hc as [<-|[]]. split; [exact Hn|]. split; [exact Hg|exact Hl].
  Qed.
  Lemma attrs_apart : forall i j f g v w c d, i <> j -> nth_error fs i = Some f -> nth_error vs i = Some v ->
    nth_error fs j = Some g -> nth_error vs j = Some w -> In c (W f v) -> In d (W g w) -> n_local (at_name c) <> n_local (at_name d).
  Proof.
    intros i j f g v w c d Hij Hf Hv Hg Hw Hc Hd Heq.
    destruct (field_kinds f) as [Ha|[Hel|Hff]]; [|rewrite (elem_no_attrs f v Hel) in Hc; destruct Hc|].
    - destruct (field_kinds g) as [Hb|[Hel|Hgf]]; [|rewrite (elem_no_attrs g w Hel) in Hd; destruct Hd|].
      + apply Hij. destruct fine as (_ & _ & Hdis). apply (Hdis i j f g Hf Hg). right. left. split; [exact Ha|]. split; [exact Hb|].
        rewrite <- (proj1 (attr_written i f v c Hf Hv Ha Hc)), <- (proj1 (attr_written j g w d Hg Hw Hb Hd)). exact Heq.
      + destruct (flat_typed j g Hg Hgf) as [uid Hu]. destruct (pair_of j i g f w v uid (not_eq_sym Hij) Hg Hw Hf Hv Hgf Hu) as (_ & _ & _ & _ & H5).
        apply (H5 c Hc). rewrite Heq. apply (flat_claim j g w d uid Hg Hw Hgf Hu Hd).
    - destruct (flat_typed i f Hf Hff) as [uid Hu]. destruct (pair_of i j f g v w uid Hij Hf Hv Hg Hw Hff Hu) as (_ & _ & _ & _ & H5).
      apply (H5 d Hd). rewrite <- Heq. apply (flat_claim i f v c uid Hf Hv Hff Hu Hc).
  Qed.

  Lemma wrote : Wrote E id self (concat Ps) A st.
  Proof.
    split; [exact all_neat|]. split; [exact all_texts|]. split; [|split].
    - intros _ Hno. destruct Hs as [Htd Hb]. destruct (Hno td fs Htd Hb).
    - intros c Hc. destruct (tag_in x E ra self fs vs b A HA c Hc) as (j & f & v & Hj & Hv & Hin).
      destruct (field_kinds f) as [Ha|[Hel|Hff]]; [|rewrite (elem_no_attrs f v Hel) in Hin; destruct Hin|].
      + destruct (attr_written j f v c Hj Hv Ha Hin) as (H1 & H2 & H3). split; [exact H2|]. split; [exact H3|]. rewrite H1. apply (attr_claim j f Hj Ha).
      + destruct (flat_typed j f Hj Hff) as [uid Hu]. destruct (flat_claim j f v c uid Hj Hv Hff Hu Hin) as (H1 & H2 & H3).
        split; [exact H1|]. split; [exact H2|]. apply (claims_shares E id uid); [right; apply (flat_spliced j f uid Hj Hff Hu)|exact H3].
    - apply (tag_nodup x E ra self fs vs b A Hlen HA); [|intros; eapply attrs_apart; eassumption].
      intros j f v Hj Hv. destruct (field_kinds f) as [Ha|[Hel|Hff]]; [|rewrite (elem_no_attrs f v Hel); constructor|].
      + destruct (attr_part j f v Hj Hv Ha) as [_ [[Hw _]|(t & w & Hw & _)]]; rewrite Hw; [constructor|]. constructor; [intros []|constructor].
      + destruct (at_field j f Hj) as (v' & P & Hv' & HP). assert (v' = v) by congruence. subst v'.
        destruct (flat_part j f v P Hj Hv HP Hff) as (uid & Hty & Hp).
        destruct Hp as [w b' m _ _ _ Hw _ _|? ? ? ? _ _ _ _ _ _ _ _ Hw]; [apply Hw|rewrite Hw; constructor].
  Qed.

  (** ** Reading *)
  Notation R P := (flat_map (rkid st) P).
  Lemma part_rewritable : forall j f v P r, nth_error fs j = Some f -> nth_error vs j = Some v -> nth_error Ps j = Some P ->
    In r (R P) -> Rewritable (squash st) r.
  Proof.
    intros j f v P r H1 H2 H3 Hr. apply in_flat_map in Hr. destruct Hr as (k & Hk & Hr).
    apply (neat_rewritable B Hfun (B_good E Hok) k st (nodes_neat j f v P H1 H2 H3 k Hk) Hst r Hr).
  Qed.
  (** What flattened fields write, the other fields leave. *)
  Lemma flat_left : forall j f v P r, nth_error fs j = Some f -> nth_error vs j = Some v -> nth_error Ps j = Some P ->
    flat_field f = true -> In r (R P) ->
    is_left ra fs r = true /\ KidFits x E af ff ra fs r /\ Tidy x E ra fs r /\ kid_given x Dec ra fs r = OOk [].
  Proof.
    intros j f v P r H1 H2 H3 Hff Hr. apply in_flat_map in Hr. destruct Hr as (k & Hk & Hr). pose proof (nodes_neat j f v P H1 H2 H3 k Hk) as Hn.
    destruct (flat_typed j f H1 Hff) as [uid Hu].
    assert (Htxt : forall s, some_text k = true -> s <> "" -> is_left ra fs (Txt s) = true /\ KidFits x E af ff ra fs (Txt s) /\ Tidy x E ra fs (Txt s) /\
      kid_given x Dec ra fs (Txt s) = OOk []).
    { intros s Hst' Hne. split; [reflexivity|]. split; [constructor; exact Hne|]. split; [exact I|]. cbn [kid_given]. rewrite text_fields_none; [reflexivity|].
      intros g Hg. apply bool_false. intros Ht. apply In_nth_error in Hg. destruct Hg as [i Hi]. destruct (at_field i g Hi) as (w & Q & Hw & _).
      destruct (Nat.eq_dec j i) as [<-|Hij].
      - assert (g = f) by congruence. subst g. destruct fine as (_ & Hfi & _). specialize (Hfi f (nth_error_In _ _ H1)).
        destruct (flat_attr f Hff) as [E1 E2]. rewrite E1, E2 in Hfi. destruct Hfi as [Hfi _]. congruence.
      - destruct (pair_of j i f g v w uid Hij H1 H2 Hi Hw Hff Hu) as (_ & P2 & _). specialize (P2 Ht).
        rewrite (nodes_of j f v P H1 H2 H3) in P2. apply (ntexts_some k P Hk Hst' P2). }
    destruct k as [n a m ks|s|s]; cbn [rkid] in Hr.
    - destruct Hr as [<-|[]]. rewrite reread_elem. inversion Hn as [| |? ? ? ? ? _ _ _ Hl _ _ _ _]; subst.
      assert (Hno : field_for ra fs (rname (declare st m :: st) n) = None).
      { apply field_for_none. intros g Hg Hel He. apply In_nth_error in Hg. destruct Hg as [i Hi]. destruct (at_field i g Hi) as (w & Q & Hw & _).
        destruct (Nat.eq_dec j i) as [<-|Hij]; [assert (g = f) by congruence; subst g; apply (flat_elem f Hff Hel)|].
        destruct (pair_of j i f g v w uid Hij H1 H2 Hi Hw Hff Hu) as (P1 & _). apply (P1 Hel n a m ks); [|congruence].
        rewrite (nodes_of j f v P H1 H2 H3). exact Hk. }
      cbn [is_left kid_given]. rewrite Hno. split; [reflexivity|]. split; [apply kid_other; exact Hno|]. split; [|reflexivity].
      cbn [Tidy]. intros i g Hg. congruence.
    - inversion Hn as [? ? Hc| |]; subst. destruct Hc as [Hc| ->]; [|destruct Hr]. rewrite (clean_node _ Hc) in Hr. destruct Hr as [<-|[]].
      pose proof (clean_nonempty _ Hc) as Hne. apply Htxt; [|exact Hne]. cbn [some_text]. apply negb_true_iff. apply String.eqb_neq. exact Hne.
    - inversion Hn as [|? ? Hc _|]; subst. rewrite (clean_node _ Hc) in Hr. destruct Hr as [<-|[]].
      pose proof (clean_nonempty _ Hc) as Hne. apply Htxt; [|exact Hne]. cbn [some_text]. apply negb_true_iff. apply String.eqb_neq. exact Hne.
  Qed.
  (** What the type has no use for. *)
  Lemma unused : forall uid td' gs k o, struct_type E uid td' gs -> ignored E uid k -> Rewritable o k ->
    is_left (t_attrs td') gs k = true /\ (forall af ff, KidFits x E af ff (t_attrs td') gs k) /\ Tidy x E (t_attrs td') gs k /\
    forall sub, kid_given x sub (t_attrs td') gs k = OOk [].
  Proof.
    intros uid td' gs k o [Htd Hb] Hi Hr. specialize (Hi uid td' (or_introl eq_refl) Htd). rewrite Hb in Hi. destruct k as [n a m ks|s].
    - assert (Hno : field_for (t_attrs td') gs n = None) by (apply field_for_none; exact Hi). cbn [is_left kid_given]. rewrite Hno.
      split; [reflexivity|]. split; [intros; apply kid_other; exact Hno|]. split; [|reflexivity]. cbn [Tidy]. intros i g Hg. congruence.
    - inversion Hr as [? ? Hc|]; subst. split; [reflexivity|]. split; [intros; constructor; apply (clean_nonempty _ Hc)|]. split; [exact I|].
      intros sub. cbn [kid_given]. rewrite (text_fields_none gs Hi). reflexivity.
  Qed.
  (** The kids of one field. *)
  Lemma part_kids : forall j f v P r, nth_error fs j = Some f -> nth_error vs j = Some v -> nth_error Ps j = Some P ->
    In r (R P) -> KidFits x E af ff ra fs r /\ (flattens fs = true -> Tidy x E ra fs r).
  Proof.
    intros j f v P r H1 H2 H3 Hr. destruct (field_kinds f) as [Ha|[Hel|Hff]].
    - rewrite (attr_nodes j f v P H1 H2 H3 Ha) in Hr. destruct Hr.
    - destruct (own_nodes j f v P H1 H2 H3 Hel) as (it & Hp & _). apply in_flat_map in Hr. destruct Hr as (k & Hk & Hr).
      destruct Hp as [p it Hp|t Ht Hc Hty|Ht].
      + destruct (forall2_in _ _ _ _ _ Hp k Hk) as (w & _ & Hel' & Hn & Hkf & _ & Htd & _). destruct k as [n a m ks|s|s]; try destruct Hel'.
        destruct Hr as [<-|[]]. split; assumption.
      + destruct Hk as [<-|[]]. cbn [rkid] in Hr. rewrite (clean_node _ Hc) in Hr. destruct Hr as [<-|[]].
        split; [constructor; apply (clean_nonempty _ Hc)|intros _; exact I].
      + destruct Hk as [<-|[]]. destruct Hr.
    - destruct (flat_left j f v P r H1 H2 H3 Hff Hr) as (_ & K1 & K2 & _). split; [exact K1|intros _; exact K2].
  Qed.
  Lemma items_given : forall i it p, Forall2 (ItemPart x E (S L) ra fs st i) it p ->
    ocollect (kid_given x Dec ra fs) (R p) = OOk (map (pair i) it) /\ filter (is_left ra fs) (R p) = [].
  Proof.
    intros i it p H. induction H as [|w k it p (He & _ & _ & Hl & _ & Hg) Hp [IH1 IH2]]; [split; reflexivity|].
    destruct k as [n a m ks|s|s]; try destruct He. cbn [flat_map rkid]. rewrite ocollect_app, ocollect_cons, Hg, IH1. split; [reflexivity|].
    rewrite filter_app. cbn [filter]. rewrite Hl, IH2. reflexivity.
  Qed.
  Definition own_kind (f : field) : bool := (negb (ya_attribute (f_attrs f)) && negb (ya_flatten (f_attrs f)))%bool.
  Lemma own_elem : forall f, elem_field f -> own_kind f = true.
  Proof. intros f [H1 H2]. unfold own_kind. rewrite H1, H2. reflexivity. Qed.
  Lemma part_given : forall j f v P, nth_error fs j = Some f -> nth_error vs j = Some v -> nth_error Ps j = Some P ->
    exists it, ocollect (kid_given x Dec ra fs) (R P) = OOk (if own_kind f then map (pair j) it else []) /\
      (elem_field f -> field_result x (t_name td) f it = Ok v).
  Proof.
    intros j f v P H1 H2 H3. destruct (field_kinds f) as [Ha|[Hel|Hff]].
    - rewrite (attr_nodes j f v P H1 H2 H3 Ha). exists []. unfold own_kind. rewrite Ha. split; [reflexivity|]. intros [Hx _]. congruence.
    - destruct (own_nodes j f v P H1 H2 H3 Hel) as (it & Hp & Hr). exists it. split; [|intros _; exact Hr]. rewrite (own_elem f Hel).
      destruct Hp as [p it Hp|t Ht Hc Hty|Ht].
      + apply (items_given j it p Hp).
      + cbn [flat_map rkid]. rewrite (clean_node _ Hc). cbn [app]. rewrite ocollect_cons. cbn [kid_given].
        rewrite (text_fields_one E ra fs fine j f H1 Ht Hty). reflexivity.
      + reflexivity.
    - exists []. split; [|intros Hel; destruct (flat_elem f Hff Hel)].
      assert (Hk : own_kind f = false) by (unfold own_kind; destruct (flat_attr f Hff) as [E1 E2]; rewrite E2; apply andb_false_r). rewrite Hk.
      assert (Hall : forall r, In r (R P) -> kid_given x Dec ra fs r = OOk []) by (intros r Hr; apply (flat_left j f v P r H1 H2 H3 Hff Hr)).
      induction (R P) as [|r l IHl]; [reflexivity|]. rewrite ocollect_cons, (Hall r (or_introl eq_refl)), IHl; [reflexivity|]. intros; apply Hall; right; assumption.
  Qed.

  Lemma fields_result_fails : forall tn fs' i c j g, nth_error fs' j = Some g ->
    (exists m, field_result x tn g (given (i + j) c) = Er m) -> exists m, fields_result x tn i fs' c = Er m.
  Proof.
    intros tn. induction fs' as [|f fs' IHf]; intros i c j g Hj [m Hm]; [destruct j; discriminate|]. cbn [fields_result].
    destruct j as [|j]; cbn [nth_error] in Hj.
    - injection Hj as ->. rewrite Nat.add_0_r in Hm. rewrite Hm. eauto.
    - rewrite <- Nat.add_succ_comm in Hm. destruct (IHf (S i) c j g Hj (ex_intro _ m Hm)) as [m' Hm'].
      destruct (field_result x tn f (given i c)); [|eauto]. rewrite Hm'. eauto.
  Qed.
  (** Nothing for a required field. *)
  Lemma reads_nothing : forall uid td' gs g t o n a m K, struct_type E uid td' gs -> flattens gs = false ->
    In g gs -> f_ty g = TBase t -> ya_default (f_attrs g) = None ->
    Rewritable o (Elem n a m K) -> takes E uid (elabel n) -> bad_namespace (t_attrs td') n = None ->
    (forall k, In k K -> ignored E uid k) -> (forall l, claims_attr E uid l -> values_of l a = []) ->
    Conforms x E (S L) uid (Elem n a m K) /\ exists e, value_of x E (S L) true uid (Elem n a m K) = OErr e.
  Proof.
    intros uid td' gs g t o n a m K Hst' Hnf Hg Hty Hd Hrw [Htk _] Hns Hig Hval.
    inversion Hrw as [|? ? ? ? ? _ _ _ _ _ _ _ _ _ Hkr]; subst.
    assert (Hclaim : forall f, In f gs -> ya_attribute (f_attrs f) = true -> claims_attr E uid (field_name f)).
    { intros f Hf Ha. exists uid, td'. split; [left; reflexivity|]. split; [apply Hst'|]. rewrite (proj2 Hst'). eauto. }
    split.
    - rewrite Conforms_Fits. destruct Hst' as [Htd' Hb']. eapply fits_struct; [exact Htd'|exact Hb'| | | |congruence].
      + specialize (Htk td' Htd'). unfold takes_own in Htk. rewrite Hb' in Htk. destruct Htk as [Htk|Htk]; [left; exact Htk|right].
        apply field_for_none. exact Htk.
      + intros f c id' Hf Hc Ha Hn Hb. exfalso. specialize (Hval _ (Hclaim f Hf Ha)).
        assert (Hin : In (at_value c) (values_of (field_name f) a)).
        { unfold values_of. apply in_map. apply filter_In. split; [exact Hc|]. apply String.eqb_eq. exact Hn. }
        rewrite Hval in Hin. destruct Hin.
      + intros k Hk. destruct (unused uid td' gs k m (conj Htd' Hb') (Hig k Hk) (Hkr k Hk)) as (_ & H & _). apply H.
    - rewrite value_of_decode.
      assert (Hca : attrs_given x (attr_value_at x E (S L)) gs a = OOk (contrib (fun f => ya_attribute (f_attrs f)) 0 gs (map (fun _ => []) gs))).
      { unfold attrs_given, numbered. apply attrs_contrib; [apply map_length|]. intros j f it Hj Hi Ha. rewrite nth_error_map, Hj in Hi. injection Hi as <-.
        rewrite attr_values. change (snd (flabel ya0 f)) with (field_name f). rewrite (Hval _ (Hclaim f (nth_error_In _ _ Hj) Ha)). reflexivity. }
      assert (Hck : ocollect (kid_given x (decode x E (attr_value_at x E (S L)) (flat_value_at x E (S L)) false) (t_attrs td') gs) K = OOk []).
      { assert (Hz : forall k, In k K -> kid_given x (decode x E (attr_value_at x E (S L)) (flat_value_at x E (S L)) false) (t_attrs td') gs k = OOk []).
        { intros k Hk. apply (unused uid td' gs k m Hst' (Hig k Hk) (Hkr k Hk)). }
        clear -Hz. induction K as [|k K IHK]; [reflexivity|]. rewrite ocollect_cons, (Hz k (or_introl eq_refl)), IHK; [reflexivity|].
        intros c Hc. apply Hz. right. exact Hc. }
      rewrite (decode_struct_intro x E _ _ true uid td' gs n a m K _ _ [] Hst' (fun _ => Hns) Hca Hck); [|apply flat_given_off; exact Hnf].
      rewrite !app_nil_r. apply In_nth_error in Hg. destruct Hg as [j Hj].
      destruct (fields_result_fails (t_name td') gs 0 (contrib (fun f => ya_attribute (f_attrs f)) 0 gs (map (fun _ => []) gs)) j g Hj) as [e He].
      + rewrite (given_contrib _ gs (map (fun _ => []) gs) 0 j g []); [|exact Hj|rewrite nth_error_map, Hj; reflexivity].
        replace (if ya_attribute (f_attrs g) then [] else []) with (@nil value) by (destruct (ya_attribute (f_attrs g)); reflexivity).
        rewrite field_result_missing. unfold missing_value. rewrite Hty, Hd. eauto.
      + rewrite He. exists e. reflexivity.
  Qed.

  Section Around.
    Variable o : nsmap.
    Variable n : name.
    Variable a : list attr.
    Variable m : nsmap.
    Variable K : list node.
    Hypothesis Hrw : Rewritable o (Elem n a m K).
    Hypothesis Htk : takes E id (elabel n).
    Hypothesis Hns : n_ns n <> Some "".
    Hypothesis Hctx : Ctx (fun k => spread E id self /\ ignored E id k) (R (concat Ps)) K.
    Hypothesis Hval : forall l, claims_attr E id l -> values_of l a = values_of l A.
    Notation rest := (Elem n a m (filter (is_left ra fs) K)).

    Lemma kid_rewritable : forall k, In k K -> Rewritable m k.
    Proof. inversion Hrw; subst; assumption. Qed.
    Lemma whole_rewritable : forall r, In r (R (concat Ps)) -> Rewritable (squash st) r.
    Proof.
      intros r Hr. apply in_flat_map in Hr. destruct Hr as (k & Hk & Hr).
      apply (neat_rewritable B Hfun (B_good E Hok) k st (all_neat k Hk) Hst r Hr).
    Qed.
    Lemma whole_part : forall r, In r (R (concat Ps)) -> exists j f v P, nth_error fs j = Some f /\ nth_error vs j = Some v /\ nth_error Ps j = Some P /\ In r (R P).
    Proof.
      intros r Hr. apply in_flat_map in Hr. destruct Hr as (k & Hk & Hr). apply in_concat in Hk. destruct Hk as (P & HP & Hk).
      apply In_nth_error in HP. destruct HP as [j HP]. destruct (nth_of _ fs j) as [f Hf]; [rewrite <- HlenP; eapply nth_lt; eassumption|].
      destruct (at_field j f Hf) as (v & P' & Hv & _). exists j, f, v, P. repeat split; auto. apply in_flat_map. eauto.
    Qed.
    Lemma kids_fit : forall k, In k K -> KidFits x E af ff ra fs k /\ (flattens fs = true -> Tidy x E ra fs k).
    Proof.
      intros k Hk. destruct (ctx_in _ _ _ k Hctx Hk) as [[_ Hi]|(r & Hr & Ha)].
      - destruct (unused id td fs k m Hs Hi (kid_rewritable k Hk)) as (_ & H1 & H2 & _). split; [apply H1|intros _; exact H2].
      - destruct (whole_part r Hr) as (j & f & v & P & H1 & H2 & H3 & Hr'). destruct (part_kids j f v P r H1 H2 H3 Hr') as [K1 K2].
        split; [|intros Hf; apply (tidy_alike x E ra fs r k Ha (K2 Hf))].
        apply (kid_fits_alike x E (S (S L)) ra fs r k (squash st) m Ha (whole_rewritable r Hr) (kid_rewritable k Hk) K1).
    Qed.
    Lemma kids_give : ocollect (kid_given x Dec ra fs) K = ocollect (kid_given x Dec ra fs) (R (concat Ps)).
    Proof.
      apply (ctx_collect _ (fun k => (spread E id self /\ ignored E id k) /\ In k K) _ (R (concat Ps))).
      - revert Hctx. apply ctx_mono. intros k Hk Hi. split; assumption.
      - intros k [[_ Hi] Hk]. apply (unused id td fs k m Hs Hi (kid_rewritable k Hk)).
      - intros k k' Hk Hk' Ha. apply (kid_given_alike x E (S (S L)) ra fs k k' (squash st) m Ha (whole_rewritable k Hk) (kid_rewritable k' Hk')).
    Qed.
    Lemma attr_field_values : forall j f v, nth_error fs j = Some f -> nth_error vs j = Some v -> ya_attribute (f_attrs f) = true ->
      values_of (field_name f) a = values_of (field_name f) (W f v).
    Proof.
      intros j f v Hj Hv Ha. rewrite (Hval _ (attr_claim j f Hj Ha)). apply (tag_values x E ra self fs vs b A HA j f v _ Hj Hv).
      intros i g w c Hij Hg Hw Hc Hx. destruct (field_kinds g) as [Hb|[Hel|Hgf]]; [|rewrite (elem_no_attrs g w Hel) in Hc; destruct Hc|].
      - apply Hij. destruct fine as (_ & _ & Hdis). apply (Hdis i j g f Hg Hj). right. left. split; [exact Hb|]. split; [exact Ha|].
        rewrite <- (proj1 (attr_written i g w c Hg Hw Hb Hc)). exact Hx.
      - destruct (flat_typed i g Hg Hgf) as [uid Hu]. destruct (pair_of i j g f w v uid Hij Hg Hw Hj Hv Hgf Hu) as (_ & _ & P3 & _).
        apply (P3 Ha c Hc Hx).
    Qed.
    Lemma attr_gives : forall j f v, nth_error fs j = Some f -> nth_error vs j = Some v -> ya_attribute (f_attrs f) = true ->
      (exists it, ocollect (attr_given x av j f) a = OOk (map (pair j) it) /\ field_result x (t_name td) f it = Ok v) /\
      (forall c uid, In c a -> n_local (at_name c) = field_name f -> base_of (f_ty f) = BUser uid ->
         (exists b, f_ty f = TBase b \/ f_ty f = TOpt b) /\ af uid (at_value c)).
    Proof.
      intros j f v Hj Hv Ha. pose proof (attr_field_values j f v Hj Hv Ha) as Hvals. rewrite attr_values.
      change (snd (flabel ya0 f)) with (field_name f). rewrite Hvals.
      destruct (attr_part j f v Hj Hv Ha) as [Hn [[Hw Hr]|(t & w & Hw & Hl & Hg & Hty & Hit & Hfi & Hr)]]; rewrite Hw in Hvals |- *.
      - split; [exists []; split; [reflexivity|exact Hr]|]. intros c uid Hc Hcn Hb. exfalso.
        assert (Hin : In (at_value c) (values_of (field_name f) a)).
        { unfold values_of. apply in_map. apply filter_In. split; [exact Hc|]. apply String.eqb_eq. exact Hcn. }
        rewrite Hvals in Hin. destruct Hin.
      - assert (Hone : values_of (field_name f) [Attr (qname (field_qname ra f)) t] = [t]).
        { unfold values_of. cbn [filter at_name]. rewrite Hn, String.eqb_refl. reflexivity. }
        rewrite Hone in *. split.
        + exists [w]. split; [|exact Hr]. rewrite ocollect_cons. unfold value_given. destruct Hty as [t' [Hty|Hty]]; rewrite Hty in *; rewrite Hit; reflexivity.
        + intros c uid Hc Hcn Hb.
          assert (Hin : In (at_value c) (values_of (field_name f) a)).
          { unfold values_of. apply in_map. apply filter_In. split; [exact Hc|]. apply String.eqb_eq. exact Hcn. }
          rewrite Hvals in Hin. destruct Hin as [<-|[]]. split; [exact Hty|]. apply (Hfi uid Hb).
    Qed.

    (** What is left is what the flattened field wrote, and things it has no use for. *)
    Lemma left_parts : forall i f v P uid, nth_error fs i = Some f -> nth_error vs i = Some v -> nth_error Ps i = Some P ->
      flat_field f = true -> base_of (f_ty f) = BUser uid ->
      Ctx (ignored E uid) (R P) (filter (is_left ra fs) K).
    Proof.
      intros i f v P uid Hi Hv HP Hff Hu. apply (ctx_trans _ _ (filter (is_left ra fs) (R (concat Ps)))).
      - intros k k' Ha Hk. apply (ignored_alike E uid k k' Ha Hk).
      - rewrite flat_map_parts, filter_concat. apply (ctx_pick _ _ _ i); [rewrite !map_length; eapply nth_lt; eassumption|].
        intros j l Hl. rewrite !nth_error_map in Hl. destruct (nth_error Ps j) as [Q|] eqn:HQ; [|discriminate]. injection Hl as <-.
        destruct (nth_of _ fs j) as [g Hg]; [rewrite <- HlenP; eapply nth_lt; eassumption|]. destruct (at_field j g Hg) as (w & Q' & Hw & _).
        destruct (Nat.eqb_spec j i) as [->|Hji].
        + assert (Q = P) by congruence. subst Q.
          assert (Hall : forall r, In r (R P) -> is_left ra fs r = true) by (intros r Hr; apply (flat_left i f v P r Hi Hv HP Hff Hr)).
          assert (Hfil : filter (is_left ra fs) (R P) = R P).
          { clear -Hall. induction (R P) as [|r l IHl]; [reflexivity|]. cbn [filter]. rewrite (Hall r (or_introl eq_refl)), IHl; [reflexivity|].
            intros c Hc. apply Hall. right. exact Hc. }
          rewrite Hfil. apply ctx_refl.
        + apply ctx_all. intros r Hr. destruct (pair_of i j f g v w uid (not_eq_sym Hji) Hi Hv Hg Hw Hff Hu) as (_ & _ & _ & P4 & _).
          rewrite (nodes_of j g w Q Hg Hw HQ) in P4.
          assert (Hback : flat_field g = true \/ ya_text (f_attrs g) = true -> ignored E uid r).
          { intros Hkind. apply filter_In in Hr. destruct Hr as [Hr _]. apply in_flat_map in Hr. destruct Hr as (k & Hk & Hr).
            apply (ignores_reread E uid k st r (nodes_neat j g w Q Hg Hw HQ k Hk) (P4 Hkind k Hk) Hr). }
          destruct (field_kinds g) as [Ha|[Hel|Hgf]]; [|destruct (own_nodes j g w Q Hg Hw HQ Hel) as (it & Hp & _)|apply Hback; left; exact Hgf].
          * rewrite (attr_nodes j g w Q Hg Hw HQ Ha) in Hr. destruct Hr.
          * destruct Hp as [p it Hp|t Ht Hc Hty|Ht]; [|apply Hback; right; exact Ht..].
            rewrite (proj2 (items_given j it p Hp)) in Hr. destruct Hr.
      - apply (ctx_mono (fun k => ignored E id k /\ In k K)).
        { intros k _ [Hk _]. apply (ignored_shares E id uid); [right; apply (flat_spliced i f uid Hi Hff Hu)|exact Hk]. }
        apply ctx_filter; [intros k k'; apply is_left_alike| |].
        + intros k [Hk Hin]. apply (unused id td fs k m Hs Hk (kid_rewritable k Hin)).
        + revert Hctx. apply ctx_mono. intros k Hin [_ Hk]. split; assumption.
    Qed.
    Lemma flat_values : forall i f v uid l, nth_error fs i = Some f -> nth_error vs i = Some v -> flat_field f = true ->
      base_of (f_ty f) = BUser uid -> claims_attr E uid l -> values_of l a = values_of l (W f v).
    Proof.
      intros i f v uid l Hi Hv Hff Hu Hl.
      rewrite (Hval l (claims_shares E id uid l (or_intror (flat_spliced i f uid Hi Hff Hu)) Hl)).
      apply (tag_values x E ra self fs vs b A HA i f v l Hi Hv). intros j g w c Hji Hg Hw Hc Hx.
      destruct (pair_of i j f g v w uid (not_eq_sym Hji) Hi Hv Hg Hw Hff Hu) as (_ & _ & _ & _ & P5). apply (P5 c Hc). rewrite Hx. exact Hl.
    Qed.
    Lemma flat_returns : forall i f v, nth_error fs i = Some f -> nth_error vs i = Some v -> flat_field f = true ->
      exists uid, (f_ty f = TBase (BUser uid) \/ f_ty f = TOpt (BUser uid)) /\ ff uid rest /\
      exists it, flat_given fv rest (i, f) = OOk (map (pair i) it) /\ field_result x (t_name td) f it = Ok v.
    Proof.
      intros i f v Hi Hv Hff. destruct (at_field i f Hi) as (v' & P & Hv' & HP). assert (v' = v) by congruence. subst v'.
      destruct (flat_part i f v P Hi Hv HP Hff) as (uid & Hty & Hp). exists uid. split; [exact Hty|].
      pose proof (flat_base _ _ Hty) as Hu. pose proof (flat_spliced i f uid Hi Hff Hu) as Hsp.
      pose proof (left_parts i f v P uid Hi Hv HP Hff Hu) as Hleft.
      destruct (rest_again o rest (rewritable_rest o n a m K (is_left ra fs) Hrw)) as (R1 & R2 & R3).
      destruct (alike_inv _ _ _ _ _ R3) as (n' & a' & m' & K' & Hr' & Hn' & Hv'' & Hk'). rewrite Hr' in R2.
      assert (Htk' : takes E uid (elabel n')) by (rewrite <- (elabel_alike n n' Hn'); apply (takes_spliced E id uid _ Htk Hsp)).
      assert (Hns' : n_ns n' <> Some "") by (rewrite <- (proj2 Hn'); exact Hns).
      assert (Hbad : forall td', nth_error E uid = Some td' -> bad_namespace (t_attrs td') n' = None).
      { intros td' Htd'. apply (takes_namespace E id uid td' n'); [rewrite <- (elabel_alike n n' Hn'); exact Htk|exact Hsp|exact Htd'|exact Hns']. }
      assert (Hctx' : Ctx (ignored E uid) (R P) K') by (apply (ctx_alike _ _ _ _ (fun k k' Ha Hk => ignored_alike E uid k k' Ha Hk) Hleft Hk')).
      assert (Hvals : forall l, claims_attr E uid l -> values_of l a' = values_of l (W f v)).
      { intros l Hl. rewrite <- Hv''. apply (flat_values i f v uid l Hi Hv Hff Hu Hl). }
      destruct (flat_attr f Hff) as [E1 E2].
      cbn [flat_fine_at flat_given flat_value_at]. rewrite E1, E2. cbn [negb andb]. rewrite Hr'.
      destruct Hp as [w b' m1 Hw Hh Hspr _ Hret _|td' gs g t Hopt Hnone Hst' Hnf Hg Hgt Hgd HP0 HW0].
      - destruct (Hret [] n' a' m' K' true R2 Htk' Hns' (fun _ td' fs' Hx => Hbad td' (proj1 Hx))) as [C1 C2]; [|exact Hvals|].
        { revert Hctx'. apply ctx_mono. intros k _ Hk. split; assumption. }
        split; [split; assumption|]. exists [w]. destruct Hw as [[Hw ->]|[Hw ->]]; rewrite Hw; rewrite C2; split; try reflexivity; unfold field_result; rewrite Hw; reflexivity.
      - subst P. rewrite HW0 in Hvals.
        destruct (reads_nothing uid td' gs g t [] n' a' m' K' Hst' Hnf Hg Hgt Hgd R2 Htk' (Hbad td' (proj1 Hst'))) as [C1 [e C2]]; [|exact Hvals|].
        { intros k Hk. destruct (ctx_in _ _ _ k Hctx' Hk) as [H|(r & [] & _)]. exact H. }
        split; [split; assumption|]. exists []. rewrite Hopt, C2. split; [reflexivity|]. unfold field_result. rewrite Hopt, Hnone. reflexivity.
    Qed.

    Lemma record_returns : forall top, (top = true -> bad_namespace ra n = None) ->
      Conforms x E (S (S L)) id (Elem n a m K) /\ value_of x E (S (S L)) top id (Elem n a m K) = OOk self.
    Proof.
      intros top Htop. split.
      - rewrite Conforms_Fits. destruct Hs as [Htd Hb]. eapply fits_struct; [exact Htd|exact Hb| | |intros k Hk; apply (kids_fit k Hk)|].
        + pose proof (proj1 Htk td Htd) as H. unfold takes_own in H. rewrite Hb in H. destruct H as [H|H]; [left; exact H|right].
          apply field_for_none. exact H.
        + intros f c uid Hf Hc Ha Hn Hu. apply In_nth_error in Hf. destruct Hf as [j Hj]. destruct (at_field j f Hj) as (v & P & Hv & _).
          destruct (attr_gives j f v Hj Hv Ha) as [_ H]. destruct (H c uid Hc Hn Hu) as [[t [Hty|Hty]] H']; rewrite Hty; exact H'.
        + intros Hfl. split; [|intros k Hk; apply (kids_fit k Hk); exact Hfl]. intros f Hf Hff. apply In_nth_error in Hf. destruct Hf as [j Hj].
          destruct (at_field j f Hj) as (v & P & Hv & _). destruct (flat_returns j f v Hj Hv Hff) as (uid & H1 & H2 & _). exists uid. split; assumption.
      - rewrite value_of_decode.
        destruct (choose _ (fun j it => forall f v P, nth_error fs j = Some f -> nth_error vs j = Some v -> nth_error Ps j = Some P ->
            (ya_attribute (f_attrs f) = true -> ocollect (attr_given x av j f) a = OOk (map (pair j) it)) /\
            ocollect (kid_given x Dec ra fs) (R P) = OOk (if own_kind f then map (pair j) it else []) /\
            flat_given fv rest (j, f) = OOk (if flat_field f then map (pair j) it else []) /\
            field_result x (t_name td) f it = Ok v) (List.length fs)) as (its & Hil & Hits).
        { intros j Hj. destruct (nth_of _ fs j Hj) as [f Hf]. destruct (at_field j f Hf) as (v & P & Hv & HP).
          destruct (part_given j f v P Hf Hv HP) as (it & Hk & Hr).
          assert (Hnf : flat_field f = false -> flat_given fv rest (j, f) = OOk []).
          { intros Hnf. unfold flat_field in Hnf. cbn [flat_given]. rewrite Hnf. reflexivity. }
          destruct (field_kinds f) as [Ha|[Hel|Hff]].
          - destruct (attr_gives j f v Hf Hv Ha) as [(it' & H1 & H2) _]. exists it'. intros f' v' P' Hf' Hv' HP'.
            assert (f' = f) by congruence. assert (v' = v) by congruence. assert (P' = P) by congruence. subst f' v' P'.
            assert (H3 : flat_field f = false) by (unfold flat_field; rewrite Ha; reflexivity). rewrite H3, (Hnf H3).
            assert (H4 : own_kind f = false) by (unfold own_kind; rewrite Ha; reflexivity). rewrite H4 in *. auto.
          - exists it. intros f' v' P' Hf' Hv' HP'.
            assert (f' = f) by congruence. assert (v' = v) by congruence. assert (P' = P) by congruence. subst f' v' P'.
            assert (H3 : flat_field f = false) by (apply bool_false; intros Hx; apply (flat_elem f Hx Hel)). rewrite H3, (Hnf H3).
            split; [intros Hx; destruct Hel; congruence|]. auto.
          - destruct (flat_returns j f v Hf Hv Hff) as (uid & _ & _ & it' & H1 & H2). exists it'. intros f' v' P' Hf' Hv' HP'.
            assert (f' = f) by congruence. assert (v' = v) by congruence. assert (P' = P) by congruence. subst f' v' P'.
            destruct (flat_attr f Hff) as [E1 E2].
            assert (H4 : own_kind f = false) by (unfold own_kind; rewrite E2; apply andb_false_r). rewrite H4 in *. rewrite Hff, H1.
            split; [congruence|]. auto. }
        assert (Hca : attrs_given x av fs a = OOk (contrib (fun f => ya_attribute (f_attrs f)) 0 fs its)).
        { unfold attrs_given, numbered. apply attrs_contrib; [exact Hil|]. intros j f it Hf Hi Ha. destruct (at_field j f Hf) as (v & P & Hv & HP).
          apply (Hits j it Hi f v P Hf Hv HP). exact Ha. }
        assert (Hck : ocollect (kid_given x Dec ra fs) K = OOk (contrib own_kind 0 fs its)).
        { rewrite kids_give, flat_map_parts. apply parts_contrib; [exact Hil|rewrite map_length; exact HlenP|]. intros j f it l Hf Hi Hl.
          rewrite nth_error_map in Hl. destruct (nth_error Ps j) as [P|] eqn:HP; [|discriminate]. injection Hl as <-. destruct (at_field j f Hf) as (v & P' & Hv & _).
          apply (Hits j it Hi f v P Hf Hv HP). }
        assert (Hcf : ocollect (flat_given fv (rest_of ra fs n a m K)) (numbered fs) = OOk (contrib flat_field 0 fs its)).
        { unfold numbered. apply fields_contrib; [exact Hil|]. intros j f it Hf Hi. destruct (at_field j f Hf) as (v & P & Hv & HP).
          apply (Hits j it Hi f v P Hf Hv HP). }
        rewrite (decode_struct_intro x E av fv top id td fs n a m K _ _ _ Hs Htop Hca Hck Hcf).
        rewrite (fields_result_all x (t_name td) _ fs vs its 0); [reflexivity|exact Hil| |exact Hlen].
        intros j f it v Hf Hi Hv. destruct (at_field j f Hf) as (v' & P & Hv' & HP). destruct (Hits j it Hi f v P Hf Hv HP) as (_ & _ & _ & Hr).
        split; [|exact Hr]. rewrite !given_app. rewrite !(given_contrib _ fs its 0 j f it Hf Hi).
        unfold own_kind, flat_field. destruct (ya_attribute (f_attrs f)), (ya_flatten (f_attrs f)); cbn [negb andb app]; rewrite ?app_nil_r; reflexivity.
    Qed.
  End Around.

  Lemma record_works : Wrote E id self (concat Ps) A st /\ Returns x E (S L) id self (concat Ps) A st.
  Proof.
    split; [exact wrote|]. intros o n a m K top Hrw Htk Hns Htop Hctx Hval.
    apply (record_returns o n a m K Hrw Htk Hns Hctx Hval top). intros Ht. apply (Htop Ht td fs Hs).
  Qed.
End Record.
