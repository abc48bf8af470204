(** * Deciding the round-trip conditions.

    Boolean versions of [supported], [rootable] and [Survives] (SpecRound.v),
    used by the examples. *)
From Verif Require Import Str Num Xml XmlText Reader Schema Ser SpecTree SpecText SpecNum SpecTyped SpecStruct SpecSer SpecValue SpecRound EqualProofs.
Open Scope list_scope.
Open Scope bool_scope.

(** ** Basic tests *)
Definition identifierb (s : string) : bool :=
  xml_name s && match split_colon s with None => true | _ => false end.
Lemma identifierb_ok : forall s, identifierb s = true -> identifier s.
Proof.
  intros s H. apply andb_true_iff in H. destruct H as [H1 H2]. split; [exact H1|].
  destruct (split_colon s); [discriminate|reflexivity].
Qed.

Lemma neqb_ok : forall a b, negb (String.eqb a b) = true -> a <> b.
Proof. intros a b H. apply negb_true_iff, String.eqb_neq in H. exact H. Qed.

Definition good_declb (p : string * string) : bool :=
  legal_attr (snd p) && negb (existsb (String.eqb (snd p)) reserved) &&
  negb (String.eqb (fst p) "xml") && negb (String.eqb (fst p) "xmlns") &&
  (String.eqb (fst p) "" || identifierb (fst p)) && negb (String.eqb (snd p) "").
Lemma good_declb_ok : forall p, good_declb p = true -> good_decl p.
Proof.
  intros p H. unfold good_declb in H. rewrite !andb_true_iff, orb_true_iff in H.
  destruct H as [[[[[H1 Ha] H2] H3] H4] H5].
  split; [split; [exact H1|]|].
  { intros Hi. apply negb_true_iff in Ha. rewrite <- not_true_iff_false in Ha. apply Ha. apply existsb_exists.
    exists (snd p). split; [exact Hi|apply String.eqb_refl]. } split; [apply neqb_ok; exact H2|]. split; [apply neqb_ok; exact H3|].
  split; [|apply neqb_ok; exact H5]. destruct H4 as [H4|H4]; [left; apply String.eqb_eq; exact H4|right; apply identifierb_ok; exact H4].
Qed.

Definition consistentb (E : env) : bool :=
  forallb (fun a => forallb (fun b => negb (String.eqb (fst a) (fst b)) || String.eqb (snd a) (snd b)) (bindings E)) (bindings E) &&
  forallb (fun p => good_declb p && negb (String.eqb (snd p) "")) (bindings E).
Lemma consistentb_ok : forall E, consistentb E = true -> consistent E.
Proof.
  intros E H. apply andb_true_iff in H. destruct H as [H1 H2]. rewrite forallb_forall in H1, H2. split.
  - intros p u u' Ha Hb. specialize (H1 _ Ha). rewrite forallb_forall in H1. specialize (H1 _ Hb). cbn [fst snd] in H1.
    rewrite String.eqb_refl in H1. apply String.eqb_eq in H1. exact H1.
  - intros p u Ha. specialize (H2 _ Ha). apply andb_true_iff in H2. destruct H2 as [H2 H3].
    split; [apply good_declb_ok; exact H2|apply neqb_ok in H3; exact H3].
Qed.

Definition no_default_namespaceb (E : env) : bool := forallb (fun p => negb (String.eqb (fst p) "")) (bindings E).
Lemma no_default_namespaceb_ok : forall E, no_default_namespaceb E = true -> no_default_namespace E.
Proof.
  intros E H u Hu. unfold no_default_namespaceb in H. rewrite forallb_forall in H. specialize (H _ Hu). discriminate.
Qed.

Definition boundb (ra : yattr) (q : string) : bool := match ns_get (ya_namespaces ra) q with Some _ => true | None => false end.
Lemma boundb_ok : forall ra q, boundb ra q = true -> ns_get (ya_namespaces ra) q <> None.
Proof. intros ra q H. unfold boundb in H. destruct (ns_get _ q); [discriminate|discriminate]. Qed.

Definition prefix_fineb (E : env) (ra : yattr) (p : option string) : bool :=
  match p with Some q => identifierb q && boundb ra q | None => no_default_namespaceb E end.
Lemma prefix_fineb_ok : forall E ra p, prefix_fineb E ra p = true -> prefix_fine E ra p.
Proof.
  intros E ra [q|] H; cbn in *; [|apply no_default_namespaceb_ok; exact H].
  apply andb_true_iff in H. split; [apply identifierb_ok|apply boundb_ok]; apply H.
Qed.

Lemma label_eqb_ok : forall a b, label_eqb a b = true -> a = b.
Proof.
  intros [a b] [c d] H. apply andb_true_iff in H. destruct H as [H1 H2]. cbn [fst snd] in *.
  apply String.eqb_eq in H1, H2. congruence.
Qed.
Lemma label_neqb_ok : forall a b, label_eqb a b = false -> a <> b.
Proof.
  intros [a b] c H <-. unfold label_eqb in H. rewrite !String.eqb_refl in H. discriminate.
Qed.

Definition readableb (v : variant) : bool := match v_body v with VbNamed _ => false | _ => true end.
Lemma readableb_ok : forall v, readableb v = true <-> readable v.
Proof.
  intros v. unfold readableb, readable. destruct (v_body v); split; intros H; try reflexivity; try congruence.
  exfalso. apply (H fs). reflexivity.
Qed.

Definition elem_fieldb (f : field) : bool := negb (ya_attribute (f_attrs f)) && negb (ya_flatten (f_attrs f)).

(** ** Type definitions *)
Definition acceptsb (E : env) (id : nat) (l : string * string) : bool :=
  match nth_error E id with
  | None => true
  | Some td =>
      match t_body td with
      | DStruct fs => label_eqb l (root_label td) ||
          forallb (fun f => negb (elem_fieldb f) || negb (label_eqb (flabel (t_attrs td) f) l)) fs
      | DEnum vs _ =>
          (String.eqb (fst l) "" ||
           match ya_prefix (t_attrs td) with
           | Some p => match ns_get (ya_namespaces (t_attrs td)) p with Some u => String.eqb u (fst l) | None => false end
           | None => false
           end) &&
          match ya_tag (t_attrs td) with
          | Some _ => true
          | None => forallb (fun v => negb (readableb v) || negb (String.eqb (variant_name v) (snd l))) vs
          end
      | DPrim _ => true
      end
  end.
Lemma acceptsb_ok : forall E id l, acceptsb E id l = true -> accepts E id l.
Proof.
  intros E id l H td Htd. unfold acceptsb in H. rewrite Htd in H. destruct (t_body td) as [fs|vs d|k]; [| |exact I].
  - apply orb_true_iff in H. destruct H as [H|H]; [left; apply label_eqb_ok; exact H|right].
    intros f Hf [H1 H2]. rewrite forallb_forall in H. specialize (H f Hf). unfold elem_fieldb in H. rewrite H1, H2 in H.
    apply label_neqb_ok. apply negb_true_iff. exact H.
  - apply andb_true_iff in H. destruct H as [H1 H2]. split.
    + apply orb_true_iff in H1. destruct H1 as [H1|H1]; [left; apply String.eqb_eq; exact H1|right].
      destruct (ya_prefix (t_attrs td)) as [p|]; [|discriminate]. exists p. split; [reflexivity|].
      destruct (ns_get _ p) as [u|]; [|discriminate]. apply String.eqb_eq in H1. congruence.
    + intros Ht v Hv Hr. rewrite Ht in H2. rewrite forallb_forall in H2. specialize (H2 v Hv).
      rewrite (proj2 (readableb_ok v) Hr) in H2. apply neqb_ok. exact H2.
Qed.
Definition accepts_baseb E b l := match b with BSimple _ => true | BUser id => acceptsb E id l end.
Lemma accepts_baseb_ok : forall E b l, accepts_baseb E b l = true -> accepts_base E b l.
Proof. intros E [s|id] l H; [exact I|apply acceptsb_ok; exact H]. Qed.

Definition not_optvec (t : fty) : bool := match t with TOptVec _ => false | _ => true end.
Lemma not_optvec_ok : forall t, not_optvec t = true -> forall b, t <> TOptVec b.
Proof. intros t H b ->. discriminate. Qed.

Definition attribute_field_fineb (ra : yattr) (f : field) : bool :=
  identifierb (field_name f) && negb (String.eqb (field_name f) "xmlns") &&
  match ya_prefix (f_attrs f) with Some p => identifierb p && boundb ra p | None => true end &&
  not_optvec (f_ty f).
Lemma attribute_field_fineb_ok : forall ra f, attribute_field_fineb ra f = true -> attribute_field_fine ra f.
Proof.
  intros ra f H. unfold attribute_field_fineb in H. rewrite !andb_true_iff in H. destruct H as [[[H1 H2] H3] H4].
  split; [apply identifierb_ok; exact H1|]. split; [apply neqb_ok; exact H2|]. split; [|apply not_optvec_ok; exact H4].
  intros p Hp. rewrite Hp in H3. apply andb_true_iff in H3. split; [apply identifierb_ok|apply boundb_ok]; apply H3.
Qed.
Definition element_field_fineb (E : env) (ra : yattr) (f : field) : bool :=
  identifierb (field_name f) && prefix_fineb E ra (ya_prefix (f_attrs f)) && negb (ya_flatten (f_attrs f)) &&
  not_optvec (f_ty f) && accepts_baseb E (base_of (f_ty f)) (flabel ra f).
Lemma element_field_fineb_ok : forall E ra f, element_field_fineb E ra f = true -> element_field_fine E ra f.
Proof.
  intros E ra f H. unfold element_field_fineb in H. rewrite !andb_true_iff in H. destruct H as [[[[H1 H2] H3] H4] H5].
  split; [apply identifierb_ok; exact H1|]. split; [apply prefix_fineb_ok; exact H2|].
  split; [apply negb_true_iff; exact H3|]. split; [apply not_optvec_ok; exact H4|apply accepts_baseb_ok; exact H5].
Qed.

(** Two fields that would be confused. *)
Definition clash (ra : yattr) (f g : field) : bool :=
  negb (ya_attribute (f_attrs f)) && negb (ya_attribute (f_attrs g)) && label_eqb (flabel ra f) (flabel ra g) ||
  ya_attribute (f_attrs f) && ya_attribute (f_attrs g) && String.eqb (field_name f) (field_name g) ||
  ya_text (f_attrs f) && ya_text (f_attrs g).
Fixpoint clash_free (ra : yattr) (fs : list field) : bool :=
  match fs with [] => true | f :: r => forallb (fun g => negb (clash ra f g)) r && clash_free ra r end.
Lemma clash_is : forall ra f g,
     (ya_attribute (f_attrs f) = false /\ ya_attribute (f_attrs g) = false /\ flabel ra f = flabel ra g) \/
     (ya_attribute (f_attrs f) = true /\ ya_attribute (f_attrs g) = true /\ field_name f = field_name g) \/
     (ya_text (f_attrs f) = true /\ ya_text (f_attrs g) = true) -> clash ra f g = true /\ clash ra g f = true.
Proof.
  intros ra f g H. unfold clash, label_eqb.
  destruct H as [(H1 & H2 & H3)|[(H1 & H2 & H3)|(H1 & H2)]]; rewrite ?H1, ?H2, ?H3, ?String.eqb_refl, ?orb_true_r; split; reflexivity.
Qed.
Lemma clash_free_ok : forall ra fs, clash_free ra fs = true ->
  forall i j f g, nth_error fs i = Some f -> nth_error fs j = Some g -> clash ra f g = true -> clash ra g f = true -> i = j.
Proof.
  intros ra. induction fs as [|h fs IH]; intros H i j f g Hi Hj Hc Hc'; [destruct i; discriminate|].
  cbn [clash_free] in H. apply andb_true_iff in H. destruct H as [H1 H2]. rewrite forallb_forall in H1.
  destruct i as [|i], j as [|j]; cbn [nth_error] in *; try reflexivity.
  - injection Hi as <-. specialize (H1 g (nth_error_In _ _ Hj)). rewrite Hc in H1. discriminate.
  - injection Hj as <-. specialize (H1 f (nth_error_In _ _ Hi)). rewrite Hc' in H1. discriminate.
  - f_equal. eapply IH; eauto.
Qed.

Definition struct_fineb (E : env) (ra : yattr) (fs : list field) : bool :=
  negb (ya_flatten ra) &&
  forallb (fun f => if ya_attribute (f_attrs f) then attribute_field_fineb ra f else element_field_fineb E ra f) fs &&
  clash_free ra fs.
Lemma struct_fineb_ok : forall E ra fs, struct_fineb E ra fs = true -> struct_fine E ra fs.
Proof.
  intros E ra fs H. unfold struct_fineb in H. rewrite !andb_true_iff in H. destruct H as [[H1 H2] H3].
  split; [apply negb_true_iff; exact H1|]. split.
  - intros f Hf. rewrite forallb_forall in H2. specialize (H2 f Hf). destruct (ya_attribute (f_attrs f));
      [apply attribute_field_fineb_ok|apply element_field_fineb_ok]; exact H2.
  - intros i j f g Hi Hj Hc. apply clash_is in Hc. eapply clash_free_ok; [exact H3|exact Hi|exact Hj|apply Hc|apply Hc].
Qed.

Definition enum_fineb (E : env) (ra : yattr) (vs : list variant) : bool :=
  negb (ya_flatten ra) &&
  match ya_tag ra with Some tg => identifierb tg && negb (String.eqb tg "xmlns") | None => true end &&
  forallb (fun v => match v_body v with
                    | VbNew _ t => identifierb (variant_name v) && prefix_fineb E ra (ya_prefix (v_attrs v)) &&
                                   accepts_baseb E (base_of t) (vlabel ra v)
                    | _ => true
                    end) vs.
Lemma enum_fineb_ok : forall E ra vs, enum_fineb E ra vs = true -> enum_fine E ra vs.
Proof.
  intros E ra vs H. unfold enum_fineb in H. rewrite !andb_true_iff in H. destruct H as [[H1 H2] H3].
  split; [apply negb_true_iff; exact H1|]. split.
  - intros tg Ht. rewrite Ht in H2. apply andb_true_iff in H2. split; [apply identifierb_ok|apply neqb_ok]; apply H2.
  - intros v fl t Hv Hb. rewrite forallb_forall in H3. specialize (H3 v Hv). rewrite Hb, !andb_true_iff in H3.
    destruct H3 as [[H3 H4] H5]. split; [apply identifierb_ok; exact H3|]. split; [apply prefix_fineb_ok; exact H4|apply accepts_baseb_ok; exact H5].
Qed.

Definition supportedb (E : env) : bool :=
  consistentb E &&
  forallb (fun td => match t_body td with
                     | DStruct fs => struct_fineb E (t_attrs td) fs
                     | DEnum vs _ => enum_fineb E (t_attrs td) vs
                     | DPrim _ => true
                     end) E.
Lemma supportedb_ok : forall E, supportedb E = true -> supported E.
Proof.
  intros E H. apply andb_true_iff in H. destruct H as [H1 H2]. split; [apply consistentb_ok; exact H1|].
  intros id td Htd. rewrite forallb_forall in H2. specialize (H2 td (nth_error_In _ _ Htd)).
  destruct (t_body td); [apply struct_fineb_ok; exact H2|apply enum_fineb_ok; exact H2|exact I].
Qed.

Definition rootableb (E : env) (id : nat) : bool :=
  match nth_error E id with
  | None => true
  | Some td => identifierb (root_name td) &&
      match t_body td with
      | DPrim _ => no_default_namespaceb E
      | _ => prefix_fineb E (t_attrs td) (ya_prefix (t_attrs td)) && acceptsb E id (root_label td)
      end
  end.
Lemma rootableb_ok : forall E id, rootableb E id = true -> rootable E id.
Proof.
  intros E id H td Htd. unfold rootableb in H. rewrite Htd in H. apply andb_true_iff in H. destruct H as [H1 H2].
  split; [apply identifierb_ok; exact H1|].
  destruct (t_body td); [| |apply no_default_namespaceb_ok; exact H2]; apply andb_true_iff in H2;
    (split; [apply prefix_fineb_ok|apply acceptsb_ok]; apply H2).
Qed.

(** ** Values *)
Fixpoint same (a b : value) {struct a} : bool :=
  let fix all (l m : list value) {struct l} : bool :=
      match l, m with
      | [], [] => true
      | u :: l', w :: m' => same u w && all l' m'
      | _, _ => false
      end in
  match a, b with
  | VStr s, VStr t => String.eqb s t
  | VBool s, VBool t => Bool.eqb s t
  | VInt s, VInt t | VFloat s, VFloat t | VUser s, VUser t => Z.eqb s t
  | VOpt None, VOpt None => true
  | VOpt (Some u), VOpt (Some w) => same u w
  | VVec l, VVec m | VRec l, VRec m => all l m
  | VVar i l, VVar j m => Nat.eqb i j && all l m
  | _, _ => false
  end.
Lemma same_ok : forall a b, same a b = true -> a = b.
Proof.
  fix IH 1. intros a b.
  assert (Hl : forall l m, (fix all (l m : list value) {struct l} : bool :=
      match l, m with
      | [], [] => true
      | u :: l', w :: m' => same u w && all l' m'
      | _, _ => false
      end) l m = true -> l = m).
  { fix IHl 1. intros [|u l] [|w m] H; try discriminate; [reflexivity|].
    apply andb_true_iff in H. destruct H as [H1 H2]. rewrite (IH u w H1), (IHl l m H2). reflexivity. }
  destruct a as [ | | | | |o| | | ], b as [ | | | | |o0| | | ]; cbn [same]; intros H; try discriminate;
    try (destruct o; discriminate).
  - apply String.eqb_eq in H. congruence.
  - apply Bool.eqb_prop in H. congruence.
  - apply Z.eqb_eq in H. congruence.
  - apply Z.eqb_eq in H. congruence.
  - apply Z.eqb_eq in H. congruence.
  - destruct o as [u|], o0 as [w|]; try discriminate H; [|reflexivity]. rewrite (IH u w H). reflexivity.
  - rewrite (Hl _ _ H). reflexivity.
  - rewrite (Hl _ _ H). reflexivity.
  - apply andb_true_iff in H. destruct H as [H1 H2]. apply Nat.eqb_eq in H1. rewrite (Hl _ _ H2). congruence.
Qed.

Definition cleanb (s : string) : bool := legal s && str_nonws s && String.eqb (trim s) s.
Lemma cleanb_ok : forall s, cleanb s = true -> clean s.
Proof.
  intros s H. unfold cleanb in H. rewrite !andb_true_iff in H. destruct H as [[H1 H2] H3].
  apply String.eqb_eq in H3. repeat split; assumption.
Qed.
Definition fitsb (t : ity) (z : Z) : bool :=
  match t with
  | I8 => (-128 <=? z) && (z <=? 127) | U8 => (0 <=? z) && (z <=? 255)
  | I16 => (-32768 <=? z) && (z <=? 32767) | U16 => (0 <=? z) && (z <=? 65535)
  | I32 => (-2147483648 <=? z) && (z <=? 2147483647) | U32 => (0 <=? z) && (z <=? 4294967295)
  | I64 => (-9223372036854775808 <=? z) && (z <=? 9223372036854775807)
  | U64 => (0 <=? z) && (z <=? 18446744073709551615)
  end%Z.
Lemma fitsb_ok : forall t z, fitsb t z = true -> fits t z.
Proof. intros t z H. destruct t; cbn [fitsb fits] in *; apply andb_true_iff in H; destruct H; rewrite Z.leb_le in *; split; assumption. Qed.

Section Check.
  Variable x : ext.
  Variable E : env.

  Definition reads_as (r : res Z) (z : Z) : bool := match r with Ok y => Z.eqb y z | Er _ => false end.
  Lemma reads_as_ok : forall r z, reads_as r z = true -> r = Ok z.
  Proof. intros [y|] z H; [|discriminate]. apply Z.eqb_eq in H. congruence. Qed.

  Section Ok.
    Variable ok : string -> Prop.
    Variable okb : string -> bool.
    Hypothesis okb_ok : forall s, okb s = true -> ok s.

    Definition leafb (s : simple) (v : value) : bool :=
      match s, v with
      | SString, VStr t => okb t
      | SBool, VBool _ => true
      | SInt t, VInt z => fitsb t z
      | SFloat d, VFloat z => okb (x_fshow x d z) && reads_as (x_fparse x d (x_fshow x d z)) z
      | _, _ => false
      end.
    Lemma leafb_ok : forall s v, leafb s v = true -> leaf_survives x ok s v.
    Proof.
      intros [| |t|d] v H; destruct v; try discriminate; cbn in *; auto.
      - apply fitsb_ok; exact H.
      - apply andb_true_iff in H. destruct H as [H1 H2]. split; [apply okb_ok; exact H1|apply reads_as_ok; exact H2].
    Qed.
    Definition primb (tn : string) (k : primkind) (v : value) : bool :=
      match k, v with
      | PInner s, _ => leafb s v || match s, v with SString, VStr "" => true | _, _ => false end
      | PHex t m, VInt z => (0 <=? z)%Z && (z <=? 9)%Z && Z.eqb (Z.land z m) z
      | PUser, VUser z => okb (x_ushow x tn z) && reads_as (x_uparse x tn (x_ushow x tn z)) z
      | _, _ => false
      end.
    Lemma primb_ok : forall tn k v, primb tn k v = true -> prim_survives x ok tn k v.
    Proof.
      intros tn [s|t m|] v H.
      - cbn in *. apply orb_true_iff in H. destruct H as [H|H]; [left; apply leafb_ok; exact H|right].
        destruct s; try discriminate. destruct v as [[|]| | | | | | | |]; try discriminate. auto.
      - destruct v; try discriminate. cbn in *. rewrite !andb_true_iff, !Z.leb_le, Z.eqb_eq in H. destruct H as [[H1 H2] H3]. auto.
      - destruct v; try discriminate. cbn in *. apply andb_true_iff in H. destruct H as [H1 H2]. split; [apply okb_ok; exact H1|apply reads_as_ok; exact H2].
    Qed.
  End Ok.

  Definition first_variantb (vs : list variant) (i : nat) (vr : variant) : bool :=
    readableb vr && forallb (fun w => negb (readableb w) || negb (String.eqb (variant_name w) (variant_name vr))) (firstn i vs).
  Lemma nth_firstn : forall {A} (l : list A) i j a, j < i -> nth_error l j = Some a -> In a (firstn i l).
  Proof.
    intros A. induction l as [|b l IH]; intros i j a Hij H; [destruct j; discriminate|].
    destruct i as [|i]; [lia|]. cbn [firstn]. destruct j as [|j]; cbn [nth_error] in H; [left; congruence|right].
    apply (IH i j); [lia|exact H].
  Qed.
  Lemma first_variantb_ok : forall vs i vr, nth_error vs i = Some vr -> first_variantb vs i vr = true -> first_variant vs i vr.
  Proof.
    intros vs i vr Hi H. apply andb_true_iff in H. destruct H as [H1 H2]. split; [exact Hi|]. split; [apply readableb_ok; exact H1|].
    intros j w Hj Hw Hr. rewrite forallb_forall in H2. specialize (H2 w (nth_firstn _ _ _ _ Hj Hw)).
    rewrite (proj2 (readableb_ok w) Hr) in H2. apply neqb_ok. exact H2.
  Qed.
  Definition bare_variantb (ra : yattr) (vr : variant) : bool :=
    match ya_prefix (v_attrs vr) with None => true | Some _ => opt_eqb (ya_prefix (v_attrs vr)) (ya_default_namespace ra) end.
  Lemma bare_variantb_ok : forall ra vr, bare_variantb ra vr = true -> bare_variant ra vr.
  Proof.
    intros ra vr H. unfold bare_variantb, bare_variant in *. destruct (ya_prefix (v_attrs vr)) as [p|]; [right|left; reflexivity].
    destruct (ya_default_namespace ra) as [q|]; cbn in H; [|discriminate]. apply String.eqb_eq in H. congruence.
  Qed.

  Definition attr_textb (s : string) : bool := cleanb s && legal_attr s.
  Lemma attr_textb_ok : forall s, attr_textb s = true -> attr_text s.
  Proof. intros s H. apply andb_true_iff in H. split; [apply cleanb_ok|]; apply H. Qed.

  Definition attrb (b : base) (v : value) : bool :=
    match b with
    | BSimple s => leafb legal_attr s v
    | BUser id =>
        match nth_error E id with
        | None => false
        | Some td =>
            identifierb (t_name td) &&
            match t_body td with
            | DStruct _ => false
            | DEnum vs d =>
                match v with
                | VVar i [] =>
                    match nth_error vs i, ya_tag (t_attrs td) with
                    | Some vr, None =>
                        first_variantb vs i vr && match v_body vr with VbUnit => true | _ => false end &&
                        bare_variantb (t_attrs td) vr && attr_textb (variant_name vr) &&
                        forallb (fun w => negb (readableb w) || negb (String.eqb (variant_name w) (t_name td))) vs
                    | _, _ => false
                    end
                | _ => false
                end
            | DPrim k => primb attr_textb (t_name td) k v
            end
        end
    end.
  Lemma attrb_ok : forall b v, attrb b v = true -> AttrSurvives x E b v.
  Proof.
    intros [s|id] v H; cbn [attrb] in H.
    - apply as_simple. apply (leafb_ok _ legal_attr); [auto|exact H].
    - destruct (nth_error E id) as [td|] eqn:Htd; [|discriminate]. apply andb_true_iff in H. destruct H as [Hi H].
      apply identifierb_ok in Hi. destruct (t_body td) as [fs|vs d|k] eqn:Hb; [discriminate| |].
      + destruct v as [| | | | | | | |i [|]]; try discriminate. destruct (nth_error vs i) as [vr|] eqn:Hv; [|discriminate].
        destruct (ya_tag (t_attrs td)) eqn:Ht; [discriminate|]. rewrite !andb_true_iff in H. destruct H as [[[[H1 H2] H3] H4] H5].
        eapply as_unit; [exact Htd|exact Hb|exact Hi|exact Ht|apply first_variantb_ok; [exact Hv|exact H1]| |apply bare_variantb_ok; exact H3|apply attr_textb_ok; exact H4|].
        * destruct (v_body vr); [reflexivity|discriminate|discriminate].
        * intros w Hw Hr. rewrite forallb_forall in H5. specialize (H5 w Hw). rewrite (proj2 (readableb_ok w) Hr) in H5. apply neqb_ok. exact H5.
      + eapply as_prim; [exact Htd|exact Hb|exact Hi|]. apply (primb_ok _ attr_textb attr_textb_ok). exact H.
  Qed.

  Definition unneededb (self : value) (f : field) (v : value) : bool :=
    match ya_skip_if (f_attrs f) with Some g => x_skip_if x g self v | None => false end ||
    match ya_default (f_attrs f) with Some d => value_eqb x v (x_default x d) | None => false end.
  Lemma unneededb_ok : forall self f v, unneededb self f v = true <-> unneeded x self f v.
  Proof.
    intros self f v. unfold unneededb, unneeded. rewrite orb_true_iff. split; (intros [H|H]; [left|right]).
    - destruct (ya_skip_if (f_attrs f)) as [g|]; [eauto|discriminate].
    - destruct (ya_default (f_attrs f)) as [g|]; [apply equal_values in H; eauto|discriminate].
    - destruct H as (g & -> & H). exact H.
    - destruct H as (g & -> & H). apply equal_values. exact H.
  Qed.
  Definition suppressedb (self : value) (f : field) (v : value) : bool := ya_skip (f_attrs f) || unneededb self f v.
  Lemma suppressedb_ok : forall self f v, suppressedb self f v = true <-> suppressed x self f v.
  Proof. intros self f v. unfold suppressedb, suppressed. rewrite orb_true_iff, unneededb_ok. reflexivity. Qed.
  Lemma unneededb_no : forall self f v, unneededb self f v = false -> ~ unneeded x self f v.
  Proof. intros self f v H Hu. apply unneededb_ok in Hu. congruence. Qed.
  Lemma suppressedb_no : forall self f v, suppressedb self f v = false -> ~ suppressed x self f v.
  Proof. intros self f v H Hu. apply suppressedb_ok in Hu. congruence. Qed.
  Definition missingb (f : field) (v : value) : bool := match missing_value x f with Some w => same w v | None => false end.
  Lemma missingb_ok : forall f v, missingb f v = true -> missing_value x f = Some v.
  Proof. intros f v H. unfold missingb in H. destruct (missing_value x f) as [w|]; [|discriminate]. apply same_ok in H. congruence. Qed.

  Definition no_ns (b : bool) (ra : yattr) : bool := negb b || match ya_namespaces ra with [] => true | _ => false end.
  Lemma no_ns_ok : forall b ra, no_ns b ra = true -> b = true -> ya_namespaces ra = [].
  Proof. intros b ra H ->. unfold no_ns in H. destruct (ya_namespaces ra); [reflexivity|discriminate]. Qed.

  Section Deep.
    Variable surv : bool -> nat -> value -> bool.
    Definition itemb (b : base) (v : value) : bool :=
      match b with BSimple s => leafb cleanb s v | BUser id => surv false id v end.
    Definition insideb (b : base) (v : value) : bool :=
      match b with
      | BSimple s => leafb (fun t => cleanb t || String.eqb t "") s v
      | BUser id => surv true id v
      end.
    Definition payloadb (d : value) (i : nat) (t : fty) (v : value) : bool :=
      match t, v with
      | TBase b, _ => insideb b v
      | TOpt b, VOpt (Some w) => insideb b w
      | TOpt b, VOpt None => same d (VVar i [VOpt None])
      | TVec b, VVec [] => same d (VVar i [VVec []])
      | TVec b, VVec l => forallb (insideb b) l
      | _, _ => false
      end.
    Definition is_string (t : fty) : bool := match t with TBase (BSimple SString) => true | _ => false end.
    Definition fieldb (b : bool) (self : value) (f : field) (v : value) : bool :=
      match f_ty f, v with
      | TOpt _, VOpt None => true
      | TVec _, VVec [] => true
      | _, _ =>
          if ya_attribute (f_attrs f) then
            (b || unneededb self f v) && missingb f v ||
            negb b && negb (unneededb self f v) &&
            match f_ty f, v with
            | TBase t, _ => attrb t v
            | TOpt t, VOpt (Some w) => attrb t w
            | _, _ => false
            end
          else if ya_text (f_attrs f) then
            match f_ty f, v with
            | TBase (BSimple SString), VStr t => cleanb t
            | TOpt (BSimple SString), VOpt (Some (VStr t)) => cleanb t
            | _, _ => false
            end
          else if suppressedb self f v then missingb f v
          else if ya_cdata (f_attrs f) then
            match v with VStr t => is_string (f_ty f) && cleanb t && negb (contains "]]>" t) | _ => false end
          else match items_of (f_ty f) v with
               | Some items => forallb (itemb (base_of (f_ty f))) items
               | None => false
               end
      end.
    Fixpoint fieldsb (b : bool) (self : value) (fs : list field) (vs : list value) : bool :=
      match fs, vs with
      | [], [] => true
      | f :: fs', v :: vs' => fieldb b self f v && fieldsb b self fs' vs'
      | _, _ => false
      end.

    Hypothesis surv_ok : forall b id v, surv b id v = true -> Survives x E b id v.
    Lemma itemb_ok : forall b v, itemb b v = true -> ItemSurvives x E b v.
    Proof.
      intros [s|id] v H; constructor; [|apply surv_ok; exact H].
      apply (leafb_ok _ cleanb cleanb_ok). exact H.
    Qed.
    Lemma insideb_ok : forall b v, insideb b v = true -> InsideSurvives x E b v.
    Proof.
      intros [s|id] v H; constructor; [|apply surv_ok; exact H].
      apply (leafb_ok _ (fun t => cleanb t || String.eqb t "")); [|exact H].
      intros t Ht. apply orb_true_iff in Ht. destruct Ht as [Ht|Ht]; [left; apply cleanb_ok; exact Ht|right; apply String.eqb_eq; exact Ht].
    Qed.
    Lemma payloadb_ok : forall d i t v, payloadb d i t v = true -> PayloadSurvives x E d i t v.
    Proof.
      intros d i t v H. destruct t as [b|b|b|b]; cbn [payloadb] in H.
      - apply pv_base, insideb_ok. exact H.
      - destruct v as [| | | | |[w|]| | |]; try discriminate; [apply pv_some, insideb_ok; exact H|apply pv_none, same_ok; exact H].
      - destruct v as [| | | | | |[|w l]| |]; try discriminate; [apply pv_vec_empty, same_ok; exact H|].
        apply pv_vec; [discriminate|]. intros u Hu. rewrite forallb_forall in H. apply insideb_ok, H. exact Hu.
      - discriminate.
    Qed.
    Lemma fieldb_ok : forall b self f v, fieldb b self f v = true -> FieldSurvives x E b self f v.
    Proof.
      intros b self f v H.
      assert (Hmain : (if ya_attribute (f_attrs f) then
            (b || unneededb self f v) && missingb f v ||
            negb b && negb (unneededb self f v) &&
            match f_ty f, v with
            | TBase t, _ => attrb t v
            | TOpt t, VOpt (Some w) => attrb t w
            | _, _ => false
            end
          else if ya_text (f_attrs f) then
            match f_ty f, v with
            | TBase (BSimple SString), VStr t => cleanb t
            | TOpt (BSimple SString), VOpt (Some (VStr t)) => cleanb t
            | _, _ => false
            end
          else if suppressedb self f v then missingb f v
          else if ya_cdata (f_attrs f) then
            match v with VStr t => is_string (f_ty f) && cleanb t && negb (contains "]]>" t) | _ => false end
          else match items_of (f_ty f) v with
               | Some items => forallb (itemb (base_of (f_ty f))) items
               | None => false
               end) = true -> FieldSurvives x E b self f v).
      { clear H. intros H. destruct (ya_attribute (f_attrs f)) eqn:Ha.
        - apply orb_true_iff in H. destruct H as [H|H].
          + apply andb_true_iff in H. destruct H as [H1 H2]. apply missingb_ok in H2.
            destruct b; [apply fv_lost_attribute; assumption|].
            apply fv_unneeded_attribute; [exact Ha|apply unneededb_ok; exact H1|exact H2].
          + rewrite !andb_true_iff, !negb_true_iff in H. destruct H as [[-> H1] H2].
            apply unneededb_no in H1. destruct (f_ty f) as [t|t|t|t] eqn:Ht; try discriminate.
            * apply (fv_attribute x E self f v t v); auto. apply attrb_ok. exact H2.
            * destruct v as [| | | | |[w|]| | |]; try discriminate.
              apply (fv_attribute x E self f _ t w); auto. apply attrb_ok. exact H2.
        - destruct (ya_text (f_attrs f)) eqn:Htx.
          + destruct (f_ty f) as [[[| | |]|]|[[| | |]|]|b0|b0] eqn:Ht; try discriminate.
            * destruct v; try discriminate. apply (fv_text x E b self f _ s); auto. apply cleanb_ok. exact H.
            * destruct v as [| | | | |[[s| | | | | | | |]|]| | |]; try discriminate.
              apply (fv_text x E b self f _ s); auto. apply cleanb_ok. exact H.
          + destruct (suppressedb self f v) eqn:Hs.
            * apply fv_suppressed; [exact Ha|exact Htx|apply suppressedb_ok; exact Hs|apply missingb_ok; exact H].
            * apply suppressedb_no in Hs. destruct (ya_cdata (f_attrs f)) eqn:Hc.
              -- destruct v; try discriminate. rewrite !andb_true_iff, negb_true_iff in H. destruct H as [[H1 H2] H3].
                 apply fv_cdata; auto; [|apply cleanb_ok; exact H2].
                 unfold is_string in H1. destruct (f_ty f) as [[[| | |]|]| | |]; try discriminate. reflexivity.
              -- destruct (items_of (f_ty f) v) as [items|] eqn:Hi; [|discriminate].
                 apply (fv_items x E b self f v items); auto. intros w Hw. rewrite forallb_forall in H. apply itemb_ok, H. exact Hw. }
      unfold fieldb in H. destruct (f_ty f) as [t|t|t|t] eqn:Ht; try (apply Hmain; exact H).
      - destruct v as [| | | | |[w|]| | |]; try (apply Hmain; exact H). apply (fv_none x E b self f t Ht).
      - destruct v as [| | | | | |[|w l]| |]; try (apply Hmain; exact H). apply (fv_no_items x E b self f t Ht).
    Qed.
    Lemma fieldsb_ok : forall b self fs vs, fieldsb b self fs vs = true -> FieldsSurvive x E b self fs vs.
    Proof.
      intros b self. induction fs as [|f fs IH]; intros [|v vs] H; try discriminate; constructor; cbn [fieldsb] in H;
        apply andb_true_iff in H; [apply fieldb_ok|apply IH]; apply H.
    Qed.
  End Deep.

  Fixpoint survivesb (n : nat) (b : bool) (id : nat) (v : value) : bool :=
    match n with
    | O => false
    | S n' =>
        match nth_error E id with
        | None => false
        | Some td =>
            match t_body td with
            | DStruct fs => match v with VRec vs => no_ns b (t_attrs td) && fieldsb (survivesb n') b v fs vs | _ => false end
            | DEnum vs d =>
                match v with
                | VVar i ws =>
                    match nth_error vs i with
                    | None => false
                    | Some vr =>
                        first_variantb vs i vr &&
                        match v_body vr, ws, ya_tag (t_attrs td) with
                        | VbUnit, [], None => bare_variantb (t_attrs td) vr && cleanb (variant_name vr)
                        | VbUnit, [], Some _ => negb b && legal_attr (variant_name vr)
                        | VbNew fl t, [w], None =>
                            negb fl && negb (ya_flatten (v_attrs vr)) && no_ns b (t_attrs td) && payloadb (survivesb n') d i t w
                        | _, _, _ => false
                        end
                    end
                | _ => false
                end
            | DPrim k => primb cleanb (t_name td) k v
            end
        end
    end.
  Lemma survivesb_ok : forall n b id v, survivesb n b id v = true -> Survives x E b id v.
  Proof.
    induction n as [|n IH]; intros b id v H; [discriminate|]. cbn [survivesb] in H.
    destruct (nth_error E id) as [td|] eqn:Htd; [|discriminate]. destruct (t_body td) as [fs|vs d|k] eqn:Hb.
    - destruct v as [| | | | | | |ws|]; try discriminate. apply andb_true_iff in H. destruct H as [H1 H2].
      eapply sv_struct; [split; [exact Htd|exact Hb]|apply no_ns_ok; exact H1|].
      apply (fieldsb_ok (survivesb n) IH). exact H2.
    - destruct v as [| | | | | | | |i ws]; try discriminate. destruct (nth_error vs i) as [vr|] eqn:Hv; [|discriminate].
      apply andb_true_iff in H. destruct H as [H1 H2]. apply (first_variantb_ok _ _ _ Hv) in H1.
      destruct (v_body vr) as [|fl t|] eqn:Hvb; [| |discriminate].
      + destruct ws; [|discriminate]. destruct (ya_tag (t_attrs td)) as [tg|] eqn:Ht; apply andb_true_iff in H2; destruct H2 as [H2 H3].
        * apply negb_true_iff in H2. subst b. eapply sv_tagged; eauto.
        * eapply sv_unit; eauto; [apply bare_variantb_ok; exact H2|apply cleanb_ok; exact H3].
      + destruct ws as [|w [|]]; try discriminate. destruct (ya_tag (t_attrs td)) as [tg|] eqn:Ht; [discriminate|].
        rewrite !andb_true_iff, !negb_true_iff in H2. destruct H2 as [[[H2 H3] H4] H5].
        eapply sv_payload; eauto; [apply no_ns_ok; exact H4|apply (payloadb_ok (survivesb n) IH); exact H5].
    - eapply sv_prim; eauto. apply (primb_ok _ cleanb cleanb_ok). exact H.
  Qed.
End Check.
