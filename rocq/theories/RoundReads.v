(** * Round trips through events and text. *)
From Verif Require Import Str Num Xml XmlText Reader Schema De Ser Conform SpecTree SpecText SpecNum SpecTyped SpecStruct SpecSer SpecValue
  SpecEnc SpecRound TreeFacts TreeProofs TextProofs ValueProofs StructProofs StructReads EncProofs SerProofs RoundNames RoundTexts RoundCore
  RoundFields RoundProofs PropertiesStruct.
Open Scope list_scope.

Definition type_label (td : typedef) : string * string :=
  match t_body td with DPrim _ => ("", t_name td) | _ => root_label td end.

Lemma root_means : forall E id td, supported E -> rootable E id -> nth_error E id = Some td ->
  means (bindings E) (declare [] (type_decls td) :: []) (type_root td) (type_label td) /\ accepts E id (type_label td).
Proof.
  intros E id td Hs Hr Htd. destruct (Hr td Htd) as [Hid Hrest]. unfold root_name, type_root, type_decls, type_label in *.
  assert (Hw : within (bindings E) []) by (intros ? ? ? []).
  destruct (t_body td) as [fs|vs d|k] eqn:Hb.
  - destruct (scope_of E Hs id td [] Htd Hw) as (S1 & S2 & _). destruct Hrest as [Hp Ha]. split; [|exact Ha].
    apply prefixed_means; [apply Hs|exact S1|exact S2|apply (own_bound E id td Htd)|exact Hid|exact Hp].
  - destruct (scope_of E Hs id td [] Htd Hw) as (S1 & S2 & _). destruct Hrest as [Hp Ha]. split; [|exact Ha].
    apply prefixed_means; [apply Hs|exact S1|exact S2|apply (own_bound E id td Htd)|exact Hid|exact Hp].
  - split.
    + unfold means. rewrite qname_plain by apply Hid. split; [apply good_plain; exact Hid|]. split; [reflexivity|].
      cbn [n_prefix]. right. split; [reflexivity|exact Hrest].
    + intros td' Htd'. assert (td' = td) by congruence. subst. rewrite Hb. exact I.
Qed.

Lemma round_tree : forall x E id v l, supported E -> rootable E id -> Survives x E false id v ->
  ser_events x E id v = SOk l ->
  exists w, l = wtree w /\ is_elem w /\ Writable [] w /\ Conforms x E 1 id (reread [] w) /\
    Reads x E id 0 (reread [] w) (OOk v).
Proof.
  intros x E id v l Hs Hr Hv Hl. pose proof (ser_events_encode x E id v) as He.
  destruct (encode x E id v (Under None)) as [p|] eqn:Hp; [|exfalso; apply (He l); exact Hl].
  assert (Hlp : l = flat_map wtree p) by congruence. clear He.
  assert (Htd : exists td, nth_error E id = Some td).
  { inversion Hv; subst; eauto. match goal with H : struct_type _ _ _ _ |- _ => destruct H; eauto end. }
  destruct Htd as [td Htd]. destruct (root_means E id td Hs Hr Htd) as [Hm Ha].
  destruct (values_survive x E Hs v) as [Hw _].
  destruct (Hw None id (type_root td) p (type_label td) [] Hv Hp) as (a & m & c & -> & H1 & H2 & H3 & H4).
  - intros ? ? ? [].
  - intros td' Htd'. assert (td' = td) by congruence. subst. reflexivity.
  - intros td' Htd'. assert (td' = td) by congruence. subst. exact Hm.
  - exact Ha.
  - exists (WElem (qname (type_root td)) a m c). split; [rewrite Hlp; cbn [flat_map]; apply app_nil_r|]. split; [exact I|].
    split; [exact H1|].
    assert (Hc : Conforms x E 1 id (reread [] (WElem (qname (type_root td)) a m c))).
    { rewrite Conforms_Fits. exact H3. }
    split; [exact Hc|]. apply (proj2 (read_decode x E 1 id 0 _ _ Hc)). cbn [Nat.eqb].
    rewrite <- H4. rewrite reread_elem in *. destruct (t_body td) as [fs|vs d|k] eqn:Hb; cbn [decode]; rewrite Htd, Hb; try reflexivity.
    assert (Hbad : bad_namespace (t_attrs td) (rname (declare [] m :: []) (qname (type_root td))) = None).
    { apply bad_namespace_none. intros u Hu. unfold elabel, type_label in H2. rewrite Hu, Hb in H2. unfold root_label in H2. injection H2 as H2 _.
      unfold uri_of in H2. destruct (ya_prefix (t_attrs td)) as [pf|] eqn:Hpf.
      - exists pf. split; [reflexivity|]. destruct (Hr td Htd) as [_ Hrt]. rewrite Hb, Hpf in Hrt. destruct Hrt as [[_ Hns] _].
        destruct (ns_get (ya_namespaces (t_attrs td)) pf); [congruence|contradiction].
      - exfalso. subst u.
        assert (Hw' : within (bindings E) (declare [] (type_decls td) :: [])).
        { unfold type_decls. rewrite Hb. apply (scope_of E Hs id td [] Htd). intros ? ? ? []. }
        destruct (means_label (bindings E) _ _ _ Hw' Hm) as (_ & _ & Hne & _).
        assert (Hdm : declare [] m = declare [] (type_decls td)); [|rewrite Hdm in Hu; contradiction].
        f_equal. rewrite encode_eq in Hp. unfold enc_type in Hp. rewrite Htd, Hb in Hp.
        pose proof (proj2 Hs id td Htd) as Hfine. rewrite Hb in Hfine. rewrite (proj1 Hfine) in Hp.
        destruct (enc_start x (encode x E) (encode_attrs x E) td v) as [[[own child] ns]|] eqn:Hst; [|discriminate].
        destruct (enc_content x (encode x E) (Under None) td v); [|discriminate]. injection Hp as _ _ <- _.
        unfold type_decls. rewrite Hb.
        assert (ns = []); [|subst; reflexivity].
        unfold enc_start in Hst. rewrite Hb in Hst. destruct v as [| | | | | | |vs|]; try discriminate.
        inversion Hv as [? ? td' fs' ? Hty _ Hf| | | |? ? td' k ? Htd' Hb' _]; subst; [|congruence].
        assert (td' = td /\ fs' = fs) as [-> ->] by (destruct Hty as [Ht1 Ht2]; split; [congruence|]; rewrite Htd in Ht1; injection Ht1 as ->; congruence).
        destruct (scope_of E Hs id td [] Htd ltac:(intros ? ? ? [])) as (S1 & S2 & S3).
        apply (tag_round x E (t_attrs td) fs _ (proj1 Hs) (own_bound E id td Htd) Hfine S2 (t_name td) (VRec vs) fs vs 0 own child ns (fun j f h => h) Hf Hst). }
    rewrite Hbad. reflexivity.
Qed.
