(** * Sound deciders for the hypotheses of C48, and its composition. *)
From Verif Require Import Str Num Xml XmlText Reader Schema De Ser SpecTree SpecText SpecNum SpecTyped SpecStruct SpecSer SpecValue
  SpecRound SpecOut SpecStable NumProofs TypedProofs TextReads RoundTexts RoundText RoundCheck OutCheck SerProofs StableProofs EqualProofs.
Open Scope list_scope.

(** ** C48 *)
Lemma stable : forall x E c fuel id s v, supported E -> rootable E id -> serializable E -> user_code_typed E x ->
  shows_back x -> durable x E -> tab_free v -> white_indent c -> from_str x E fuel id s = OOk v ->
  exists t, to_string_with_config x E c id v = SOk t /\
  exists N, forall fuel', N <= fuel' -> from_str x E fuel' id t = OOk v.
Proof.
  intros x E c fuel id s v HS HR Hser Hu Hx HD Ht Hw H.
  destruct (written_text x E c id v Hser (C20_text x E Hu fuel id s v H)) as [t Hs].
  exists t. split; [exact Hs|]. eapply round_text; eauto. eapply read_survives; eauto.
Qed.

(** ** Deciders *)
Section Durableb.
  Variable x : ext.
  Variable E : env.

  Definition payload_typeb (b : base) : bool :=
    match b with
    | BSimple _ => true
    | BUser id =>
        match nth_error E id with
        | None => true
        | Some td => match t_body td with
                     | DStruct fs => no_ns true (t_attrs td) && forallb (fun f => negb (ya_attribute (f_attrs f))) fs
                     | DEnum _ _ => no_ns true (t_attrs td) && match ya_tag (t_attrs td) with None => true | _ => false end
                     | DPrim _ => true
                     end
        end
    end%bool.
  Lemma payload_typeb_ok : forall b, payload_typeb b = true -> payload_type E b.
  Proof.
    intros b H id td -> Htd. cbn in H. rewrite Htd in H. destruct (t_body td) as [fs|vs d|k]; [| |exact I];
      apply andb_true_iff in H; destruct H as [H1 H2]; (split; [apply (no_ns_ok true); auto|]).
    - intros f Hf. rewrite forallb_forall in H2. specialize (H2 f Hf). apply negb_true_iff in H2. exact H2.
    - destruct (ya_tag (t_attrs td)); [discriminate|reflexivity].
  Qed.

  Definition attr_typeb (b : base) : bool :=
    match b with
    | BSimple _ => true
    | BUser id =>
        match nth_error E id with
        | None => true
        | Some td =>
            identifierb (t_name td) &&
            match t_body td with
            | DStruct _ => false
            | DEnum vs _ => match ya_tag (t_attrs td) with None => true | _ => false end &&
                forallb (fun v => match v_body v with VbUnit => true | _ => false end && bare_variantb (t_attrs td) v &&
                                  attr_textb (variant_name v) && negb (String.eqb (variant_name v) (t_name td))) vs
            | DPrim _ => true
            end
        end
    end%bool.
  Lemma attr_typeb_ok : forall b, attr_typeb b = true -> attr_type E b.
  Proof.
    intros b H id td -> Htd. cbn in H. rewrite Htd in H. apply andb_true_iff in H. destruct H as [Hi H].
    split; [apply identifierb_ok; exact Hi|]. destruct (t_body td) as [fs|vs d|k]; [discriminate| |exact I].
    apply andb_true_iff in H. destruct H as [H1 H2]. split; [destruct (ya_tag (t_attrs td)); [discriminate|reflexivity]|].
    intros v Hv. rewrite forallb_forall in H2. specialize (H2 v Hv). rewrite !andb_true_iff in H2. destruct H2 as [[[K1 K2] K3] K4].
    split; [destruct (v_body v); [reflexivity|discriminate|discriminate]|]. split; [apply bare_variantb_ok; exact K2|].
    split; [apply attr_textb_ok; exact K3|apply neqb_ok; exact K4].
  Qed.

  (** Defaults that are strings, booleans or integers are recognised. *)
  Definition plain_value (v : value) : bool := match v with VStr _ | VBool _ | VInt _ => true | _ => false end.
  Lemma plain_value_ok : forall d, plain_value d = true -> forall v, Equal x v d <-> v = d.
  Proof.
    intros d Hd v. rewrite <- equal_values. split.
    - destruct d; try discriminate Hd; destruct v as [| | | | |[]| | |]; cbn; try discriminate; intros H.
      + apply String.eqb_eq in H. congruence.
      + apply Bool.eqb_prop in H. congruence.
      + apply Z.eqb_eq in H. congruence.
    - intros ->. destruct d; try discriminate Hd; cbn; [apply String.eqb_refl|apply Bool.eqb_reflx|apply Z.eqb_refl].
  Qed.

  Definition string_type (t : fty) : bool :=
    match t with TBase (BSimple SString) | TOpt (BSimple SString) => true | _ => false end.
  Definition durable_fieldb (f : field) : bool :=
    let a := f_attrs f in
    (negb (ya_skip a) && match ya_skip_if a with None => true | _ => false end && negb (ya_cdata a) && not_optvec (f_ty f) &&
     match ya_default a with
     | None => true
     | Some g => negb (ya_text a) && match f_ty f with TBase _ => true | _ => false end && plain_value (x_default x g)
     end &&
     (negb (ya_attribute a) || match f_ty f with TVec _ => false | _ => true end && attr_typeb (base_of (f_ty f)) && negb (ya_text a)) &&
     (negb (ya_text a) || string_type (f_ty f)))%bool.
  Lemma durable_fieldb_ok : forall f, durable_fieldb f = true -> durable_field x E f.
  Proof.
    intros f H. unfold durable_fieldb in H. rewrite !andb_true_iff, !negb_true_iff in H.
    destruct H as [[[[[[H1 H2] H3] H4] H5] H6] H7].
    split; [exact H1|]. split; [destruct (ya_skip_if (f_attrs f)); [discriminate|reflexivity]|]. split; [exact H3|].
    split; [apply not_optvec_ok; exact H4|]. split; [|split].
    - intros g Hg. rewrite Hg in H5. rewrite !andb_true_iff, negb_true_iff in H5. destruct H5 as [[K1 K2] K3].
      split; [exact K1|]. split; [destruct (f_ty f); try discriminate; eauto|apply plain_value_ok; exact K3].
    - intros Ha. rewrite Ha in H6. cbn [negb orb] in H6. rewrite !andb_true_iff, negb_true_iff in H6. destruct H6 as [[K1 K2] K3].
      split; [intros b Hb; rewrite Hb in K1; discriminate|]. split; [apply attr_typeb_ok; exact K2|exact K3].
    - intros Ha. rewrite Ha in H7. cbn [negb orb] in H7. destruct (f_ty f) as [[[]|]|[[]|]| |]; try discriminate; auto.
  Qed.

  Definition durable_variantb (ra : yattr) (v : variant) : bool :=
    match v_body v, ya_tag ra with
    | VbUnit, None => bare_variantb ra v && cleanb (variant_name v)
    | VbUnit, Some _ => legal_attr (variant_name v)
    | VbNew fl t, None => negb fl && negb (ya_flatten (v_attrs v)) && not_optvec t && payload_typeb (base_of t)
    | VbNew _ _, Some _ => false
    | VbNamed _, _ => true
    end%bool.
  Lemma durable_variantb_ok : forall ra v, durable_variantb ra v = true -> durable_variant E ra v.
  Proof.
    intros ra v H. unfold durable_variantb in H. unfold durable_variant. destruct (v_body v) as [|fl t|fs]; [| |exact I]; destruct (ya_tag ra).
    - exact H.
    - apply andb_true_iff in H. destruct H. split; [apply bare_variantb_ok|apply cleanb_ok]; assumption.
    - discriminate.
    - rewrite !andb_true_iff, !negb_true_iff in H. destruct H as [[[H1 H2] H3] H4].
      split; [exact H1|]. split; [exact H2|]. split; [apply not_optvec_ok; exact H3|apply payload_typeb_ok; exact H4].
  Qed.

  (** [n]: nesting of the defaults of enums. *)
  Definition durable_typeb (n id : nat) (td : typedef) : bool :=
    match t_body td with
    | DStruct fs => forallb durable_fieldb fs
    | DEnum vs d => forallb (durable_variantb (t_attrs td)) vs && survivesb x E n false id d &&
        (match ya_tag (t_attrs td) with Some _ => true | None => false end || survivesb x E n true id d)
    | DPrim (PHex _ _) => false
    | DPrim _ => true
    end%bool.
  Lemma durable_typeb_ok : forall n, (forall id td, nth_error E id = Some td -> durable_typeb n id td = true) -> durable x E.
  Proof.
    intros n H id td Htd. specialize (H id td Htd). unfold durable_typeb in H. destruct (t_body td) as [fs|vs d|k] eqn:Hb.
    - intros f Hf. rewrite forallb_forall in H. apply durable_fieldb_ok. auto.
    - rewrite !andb_true_iff in H. destruct H as [[H1 H2] H3]. split; [|split].
      + intros v Hv. rewrite forallb_forall in H1. apply durable_variantb_ok. auto.
      + eapply survivesb_ok; exact H2.
      + intros Hp. specialize (Hp id td eq_refl Htd). rewrite Hb in Hp. destruct Hp as [_ Hp]. rewrite Hp in H3.
        eapply survivesb_ok; exact H3.
    - intros t m ->. discriminate.
  Qed.
  Definition durableb (n : nat) : bool := forallb (fun p => durable_typeb n (fst p) (snd p)) (numbered E).
  Lemma durableb_ok : forall n, durableb n = true -> durable x E.
  Proof.
    intros n H. apply (durable_typeb_ok n). intros id td Htd. unfold durableb in H. rewrite forallb_forall in H.
    apply (H (id, td)). unfold numbered.
    assert (G : forall l k j (a : typedef), nth_error l j = Some a -> In (k + j, a) (combine (seq k (List.length l)) l)).
    { induction l as [|b l IH]; intros k [|j] a Hj; try discriminate; cbn [nth_error List.length seq combine] in *.
      - inversion Hj; subst. left. rewrite Nat.add_0_r. reflexivity.
      - right. rewrite <- Nat.add_succ_comm. apply IH. exact Hj. }
    apply (G E 0 id td Htd).
  Qed.
End Durableb.

Definition serializableb (E : env) : bool :=
  forallb (fun td => match t_body td with
    | DStruct fs => forallb (fun f => not_optvec (f_ty f) &&
        (ya_attribute (f_attrs f) || (if ya_text (f_attrs f) then string_type (f_ty f)
         else if ya_cdata (f_attrs f) then match f_ty f with TBase (BSimple SString) => true | _ => false end else true))) fs
    | DEnum vs _ => forallb (fun v => match v_body v with VbUnit => true | VbNew _ t => not_optvec t | VbNamed _ => false end) vs
    | DPrim _ => true
    end%bool) E.
Lemma serializableb_ok : forall E, serializableb E = true -> serializable E.
Proof.
  intros E H id td Htd. unfold serializableb in H. rewrite forallb_forall in H. specialize (H td (nth_error_In _ _ Htd)).
  destruct (t_body td) as [fs|vs d|k]; [| |exact I].
  - intros f Hf. rewrite forallb_forall in H. specialize (H f Hf). apply andb_true_iff in H. destruct H as [H1 H2].
    pose proof (not_optvec_ok _ H1) as Ho. unfold field_serializable. destruct (ya_attribute (f_attrs f)); [exact Ho|].
    cbn [orb] in H2. destruct (ya_text (f_attrs f)).
    + destruct (f_ty f) as [[[]|]|[[]|]| |]; try discriminate; auto.
    + destruct (ya_cdata (f_attrs f)); [destruct (f_ty f) as [[[]|]| | |]; try discriminate; reflexivity|intros; apply Ho].
  - intros v Hv. rewrite forallb_forall in H. specialize (H v Hv). unfold variant_serializable.
    destruct (v_body v); [exact I|apply not_optvec_ok; exact H|discriminate].
Qed.

Definition user_code_typedb (E : env) (x : ext) (n : nat) : bool :=
  forallb (fun p => match t_body (snd p) with
    | DStruct fs => forallb (fun f => not_optvec (f_ty f) &&
        match ya_default (f_attrs f), f_ty f with
        | Some g, TBase (BSimple s) => simpleb s (x_default x g)
        | Some g, TBase (BUser id) => typedb E n id (x_default x g)
        | _, _ => true
        end) fs
    | DEnum vs d => typedb E n (fst p) d && forallb (fun v => match v_body v with VbNew _ t => not_optvec t | _ => true end) vs
    | DPrim _ => true
    end%bool) (numbered E).
Lemma user_code_typedb_ok : forall E x n, user_code_typedb E x n = true -> user_code_typed E x.
Proof.
  intros E x n H id td Htd. unfold user_code_typedb in H. rewrite forallb_forall in H.
  assert (Hin : In (id, td) (numbered E)).
  { unfold numbered.
    assert (G : forall l k j (a : typedef), nth_error l j = Some a -> In (k + j, a) (combine (seq k (List.length l)) l)).
    { induction l as [|b l IH]; intros k [|j] a Hj; try discriminate; cbn [nth_error List.length seq combine] in *.
      - inversion Hj; subst. left. rewrite Nat.add_0_r. reflexivity.
      - right. rewrite <- Nat.add_succ_comm. apply IH. exact Hj. }
    apply (G E 0 id td Htd). }
  specialize (H _ Hin). cbn [fst snd] in H. destruct (t_body td) as [fs|vs d|k]; [| |exact I].
  - intros f Hf. rewrite forallb_forall in H. specialize (H f Hf). apply andb_true_iff in H. destruct H as [H1 H2].
    split; [apply not_optvec_ok; exact H1|]. intros g b Hg Hb. rewrite Hg, Hb in H2. destruct b as [s|i]; constructor.
    + apply simpleb_ok. exact H2.
    + eapply typedb_ok. exact H2.
  - apply andb_true_iff in H. destruct H as [H1 H2]. split; [eapply typedb_ok; exact H1|].
    intros l a fl b Hv. rewrite forallb_forall in H2. specialize (H2 _ Hv). discriminate.
Qed.

Lemma tab_freeb_ok : forall v, all_stringsb (all_chars (fun c => negb (Ascii.eqb c "009"))) v = true -> tab_free v.
Proof. intros v H t Ht. eapply all_stringsb_ok; eauto. Qed.
