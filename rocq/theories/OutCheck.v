(** * Deciding typing and the conditions on written documents.

    Boolean versions of [Typed] (SpecTyped.v), [wellformed] and [plain_strings]
    (SpecOut.v), used by the examples. *)
From Verif Require Import Str Num Xml XmlText Reader Schema Ser SpecTree SpecText SpecNum SpecTyped SpecStruct SpecSer SpecValue SpecRound
  SpecEnc SpecOut RoundCheck.
Open Scope list_scope.
Open Scope bool_scope.

Definition simpleb (s : simple) (v : value) : bool :=
  match s, v with
  | SString, VStr _ | SBool, VBool _ | SFloat _, VFloat _ => true
  | SInt t, VInt z => fitsb t z
  | _, _ => false
  end.
Lemma simpleb_ok : forall s v, simpleb s v = true -> has_simple s v.
Proof. intros [| |t|d] v H; destruct v; try discriminate; constructor. apply fitsb_ok. exact H. Qed.

Section Typedb.
  Variable E : env.
  Section Rec.
    Variable rec : nat -> value -> bool.
    Hypothesis Hrec : forall id v, rec id v = true -> Typed E id v.
    Definition btypedb (b : base) (v : value) : bool := match b with BSimple s => simpleb s v | BUser id => rec id v end.
    Lemma btypedb_ok : forall b v, btypedb b v = true -> BTyped E b v.
    Proof. intros [s|id] v H; constructor; [apply simpleb_ok|apply Hrec]; exact H. Qed.
    Definition ftypedb (t : fty) (v : value) : bool :=
      match t, v with
      | TBase b, _ => btypedb b v
      | TOpt _, VOpt None | TOptVec _, VOpt None => true
      | TOpt b, VOpt (Some w) => btypedb b w
      | TVec b, VVec l | TOptVec b, VOpt (Some (VVec l)) => forallb (btypedb b) l
      | _, _ => false
      end.
    Lemma ftypedb_ok : forall t v, ftypedb t v = true -> FTyped E t v.
    Proof.
      assert (Hl : forall b l, forallb (btypedb b) l = true -> forall v, In v l -> BTyped E b v).
      { intros b l H v Hv. rewrite forallb_forall in H. apply btypedb_ok, H, Hv. }
      intros [b|b|b|b] v H; cbn [ftypedb] in H.
      - constructor. apply btypedb_ok. exact H.
      - destruct v as [| | | | |[w|]| | |]; try discriminate; constructor. apply btypedb_ok. exact H.
      - destruct v as [| | | | | |l| |]; try discriminate. constructor. apply Hl. exact H.
      - destruct v as [| | | | |[[| | | | | |l| |]|]| | |]; try discriminate; constructor. apply Hl. exact H.
    Qed.
    Fixpoint fstypedb (fs : list field) (vs : list value) : bool :=
      match fs, vs with
      | [], [] => true
      | f :: fs, v :: vs => ftypedb (f_ty f) v && fstypedb fs vs
      | _, _ => false
      end.
    Lemma fstypedb_ok : forall fs vs, fstypedb fs vs = true -> FieldsTyped E fs vs.
    Proof.
      induction fs as [|f fs IH]; intros [|v vs] H; try discriminate; constructor; apply andb_true_iff in H.
      - apply ftypedb_ok, H.
      - apply IH, H.
    Qed.
  End Rec.
  Fixpoint typedb (n : nat) (id : nat) (v : value) : bool :=
    match n with
    | O => false
    | S n' =>
        match nth_error E id with
        | None => false
        | Some td =>
            match t_body td, v with
            | DStruct fs, VRec vs => fstypedb (typedb n') fs vs
            | DEnum vars _, VVar i ws =>
                match nth_error vars i with
                | Some vr =>
                    match v_body vr, ws with
                    | VbUnit, [] => true
                    | VbNew _ t, [w] => ftypedb (typedb n') t w
                    | VbNamed fs, _ => fstypedb (typedb n') fs ws
                    | _, _ => false
                    end
                | None => false
                end
            | DPrim (PInner s), _ => simpleb s v
            | DPrim (PHex t mask), VInt z => fitsb t z && Z.eqb (Z.land z mask) z
            | DPrim PUser, VUser _ => true
            | _, _ => false
            end
        end
    end.
  Lemma typedb_ok : forall n id v, typedb n id v = true -> Typed E id v.
  Proof.
    induction n as [|n IH]; intros id v H; [discriminate|]. cbn [typedb] in H. destruct (nth_error E id) as [td|] eqn:Htd; [|discriminate].
    destruct (t_body td) as [fs|vars d|k] eqn:Hb.
    - destruct v; try discriminate. eapply ty_struct; [exact Htd|exact Hb|]. apply (fstypedb_ok _ IH). exact H.
    - destruct v as [| | | | | | | |i ws]; try discriminate. destruct (nth_error vars i) as [[l a b]|] eqn:Hv; [|discriminate]. cbn [v_body] in H.
      destruct b as [|fl t|fs].
      + destruct ws; [|discriminate]. eapply ty_unit; eassumption.
      + destruct ws as [|w [|]]; try discriminate. eapply ty_new; try eassumption. apply (ftypedb_ok _ IH). exact H.
      + eapply ty_named; try eassumption. apply (fstypedb_ok _ IH). destruct ws; exact H.
    - destruct k as [s|t mask|].
      + eapply ty_inner; [exact Htd|exact Hb|]. apply simpleb_ok. exact H.
      + destruct v; try discriminate. apply andb_true_iff in H. destruct H as [H1 H2].
        eapply ty_hex; [exact Htd|exact Hb|apply fitsb_ok; exact H1|apply Z.eqb_eq; exact H2].
      + destruct v; try discriminate. eapply ty_user; [exact Htd|exact Hb].
  Qed.
End Typedb.

(** ** Strings *)
Section Strings.
  Variable ok : string -> bool.
  Fixpoint all_stringsb (v : value) : bool :=
    match v with
    | VStr s => ok s
    | VOpt (Some w) => all_stringsb w
    | VVec l | VRec l | VVar _ l => forallb all_stringsb l
    | _ => true
    end.
  Lemma all_stringsb_ok : forall s v, InValue s v -> all_stringsb v = true -> ok s = true.
  Proof.
    intros s v Hv. induction Hv as [|v Hv IH|l v Hin Hv IH|l v Hin Hv IH|i l v Hin Hv IH]; cbn [all_stringsb]; intros H; auto;
      rewrite forallb_forall in H; auto.
  Qed.
End Strings.

(** ** Type definitions *)
Definition wellnamedb (ra : yattr) (p : option string) (l : string) : bool :=
  identifierb l && match p with Some q => identifierb q && boundb ra q | None => true end.
Lemma wellnamedb_ok : forall ra p l, wellnamedb ra p l = true -> wellnamed ra p l.
Proof.
  intros ra p l H. apply andb_true_iff in H. destruct H as [H1 H2]. split; [apply identifierb_ok; exact H1|].
  destruct p; [|exact I]. apply andb_true_iff in H2. split; [apply identifierb_ok|apply boundb_ok]; apply H2.
Qed.
Definition bare_payloadb (E : env) (b : base) : bool :=
  match b with
  | BUser id => match nth_error E id with Some td => match ya_namespaces (t_attrs td) with [] => true | _ => false end | None => true end
  | _ => true
  end.
Lemma bare_payloadb_ok : forall E b, bare_payloadb E b = true -> bare_payload E b.
Proof.
  intros E b H id td -> Htd. cbn in H. rewrite Htd in H. destruct (ya_namespaces (t_attrs td)); [reflexivity|discriminate].
Qed.
Definition same_attr (f g : field) : bool :=
  ya_attribute (f_attrs f) && ya_attribute (f_attrs g) && String.eqb (field_name f) (field_name g).
Fixpoint attrs_differ (fs : list field) : bool :=
  match fs with [] => true | f :: r => forallb (fun g => negb (same_attr f g)) r && attrs_differ r end.
Lemma attrs_differ_ok : forall fs, attrs_differ fs = true ->
  forall i j f g, nth_error fs i = Some f -> nth_error fs j = Some g ->
  ya_attribute (f_attrs f) = true -> ya_attribute (f_attrs g) = true -> field_name f = field_name g -> i = j.
Proof.
  induction fs as [|h fs IH]; intros H i j f g Hi Hj Hf Hg He; [destruct i; discriminate|].
  cbn [attrs_differ] in H. apply andb_true_iff in H. destruct H as [H1 H2]. rewrite forallb_forall in H1.
  assert (Hs : same_attr f g = true /\ same_attr g f = true).
  { unfold same_attr. rewrite Hf, Hg, He, String.eqb_refl. auto. }
  destruct i as [|i], j as [|j]; cbn [nth_error] in *; try reflexivity.
  - injection Hi as <-. specialize (H1 g (nth_error_In _ _ Hj)). rewrite (proj1 Hs) in H1. discriminate.
  - injection Hj as <-. specialize (H1 f (nth_error_In _ _ Hi)). rewrite (proj2 Hs) in H1. discriminate.
  - f_equal. eapply IH; eauto.
Qed.
Definition wellformed_typeb (E : env) (td : typedef) : bool :=
  let ra := t_attrs td in
  match t_body td with
  | DPrim _ => identifierb (t_name td)
  | DStruct fs =>
      wellnamedb ra (ya_prefix ra) (root_name td) && negb (ya_flatten ra) &&
      forallb (fun f => wellnamedb ra (ya_prefix (f_attrs f)) (field_name f) && negb (ya_flatten (f_attrs f)) &&
                        (negb (ya_attribute (f_attrs f)) || negb (String.eqb (field_name f) "xmlns"))) fs &&
      attrs_differ fs
  | DEnum vs _ =>
      wellnamedb ra (ya_prefix ra) (root_name td) && negb (ya_flatten ra) &&
      match ya_tag ra with Some tg => identifierb tg && negb (String.eqb tg "xmlns") | None => true end &&
      forallb (fun v => match v_body v with
                        | VbUnit => true
                        | VbNew fl t => wellnamedb ra (ya_prefix (v_attrs v)) (variant_name v) && negb fl &&
                                        negb (ya_flatten (v_attrs v)) && bare_payloadb E (base_of t)
                        | VbNamed fs => forallb (fun f => wellnamedb ra (ya_prefix (f_attrs f)) (field_name f)) fs
                        end) vs
  end.
Lemma wellformed_typeb_ok : forall E td, wellformed_typeb E td = true -> wellformed_type E td.
Proof.
  intros E td H. unfold wellformed_typeb in H. unfold wellformed_type. destruct (t_body td) as [fs|vs d|k]; [| |apply identifierb_ok; exact H].
  - rewrite !andb_true_iff, !negb_true_iff in H. destruct H as [[[H1 H2] H3] H4].
    split; [apply wellnamedb_ok; exact H1|]. split; [exact H2|]. split; [|apply attrs_differ_ok; exact H4].
    intros f Hf. rewrite forallb_forall in H3. specialize (H3 f Hf). rewrite !andb_true_iff, !negb_true_iff in H3. destruct H3 as [[H5 H6] H7].
    split; [apply wellnamedb_ok; exact H5|]. split; [exact H6|]. intros Ha. rewrite Ha in H7. apply neqb_ok. exact H7.
  - rewrite !andb_true_iff, !negb_true_iff in H. destruct H as [[[H1 H2] H3] H4].
    split; [apply wellnamedb_ok; exact H1|]. split; [exact H2|]. split.
    + intros tg Ht. rewrite Ht in H3. apply andb_true_iff in H3. split; [apply identifierb_ok|apply neqb_ok]; apply H3.
    + intros v Hv. rewrite forallb_forall in H4. specialize (H4 v Hv). destruct (v_body v) as [|fl t|fs]; [exact I| |].
      * rewrite !andb_true_iff, !negb_true_iff in H4. destruct H4 as [[[H5 H6] H7] H8].
        split; [apply wellnamedb_ok; exact H5|]. split; [exact H6|]. split; [exact H7|apply bare_payloadb_ok; exact H8].
      * intros f Hf. rewrite forallb_forall in H4. apply wellnamedb_ok, H4, Hf.
Qed.
Definition wellformedb (E : env) : bool := forallb good_declb (bindings E) && forallb (wellformed_typeb E) E.
Lemma wellformedb_ok : forall E, wellformedb E = true -> wellformed E.
Proof.
  intros E H. apply andb_true_iff in H. destruct H as [H1 H2]. rewrite forallb_forall in H1, H2. split.
  - intros pu Hpu. apply good_declb_ok, H1, Hpu.
  - intros id td Htd. apply wellformed_typeb_ok, H2. apply nth_error_In in Htd. exact Htd.
Qed.

(** ** Types with flattened parts *)
Section Flat.
  Variable E : env.

  (** Everything that [f] gives for the flattened types of a type, and [own] for
      itself; [None] if [n] does not suffice. *)
  Definition flat_type (f : field) : option nat :=
    if flat_field f then match f_ty f with TBase (BUser id) => Some id | _ => None end else None.
  Lemma flat_type_is : forall f id, flat_field f = true -> f_ty f = TBase (BUser id) -> flat_type f = Some id.
  Proof. intros f id H1 H2. unfold flat_type. rewrite H1, H2. reflexivity. Qed.
  Definition osome {A B} (g : A -> option (list B)) (o : option A) : option (list B) := match o with Some a => g a | None => Some [] end.

  Fixpoint tag_parts (n : nat) (id : nat) : option (list typedef) :=
    match n, nth_error E id with
    | O, _ => None
    | S _, None => Some []
    | S k, Some td =>
        match t_body td with
        | DPrim _ => Some []
        | DEnum _ _ => Some [td]
        | DStruct fs => SpecEnc.omap (cons td) (SpecEnc.oconcat (fun f => osome (tag_parts k) (flat_type f)) fs)
        end
    end.
  Lemma oconcat_each : forall A B (g : A -> option (list B)) l r, SpecEnc.oconcat g l = Some r -> forall a, In a l ->
    exists p, g a = Some p /\ forall b, In b p -> In b r.
  Proof.
    intros A B g. induction l as [|c l IH]; intros r H a Ha; [destruct Ha|]. cbn [SpecEnc.oconcat] in H. unfold SpecEnc.oapp in H.
    destruct (g c) as [p|] eqn:Hg; [|discriminate]. destruct (SpecEnc.oconcat g l) as [q|] eqn:Hq; [|discriminate]. injection H as <-.
    destruct Ha as [<-|Ha].
    - exists p. split; [exact Hg|]. intros b Hb. apply in_or_app. left. exact Hb.
    - destruct (IH q eq_refl a Ha) as (p' & Hp & Hi). exists p'. split; [exact Hp|]. intros b Hb. apply in_or_app. right. apply Hi. exact Hb.
  Qed.
  Lemma tag_parts_all : forall id td, part_of E id td -> forall n l, tag_parts n id = Some l -> In td l.
  Proof.
    intros id td H. induction H as [id td Ht Hk|id td fs f id' td' Ht Hb Hf Hfl Hty Hp IH]; intros [|n] l Hl; try discriminate; cbn [tag_parts] in Hl; rewrite Ht in Hl.
    - destruct (t_body td) as [fs|vs d|k] eqn:Hb; [..|destruct (Hk k eq_refl)].
      + destruct (SpecEnc.oconcat _ fs); [|discriminate]. injection Hl as <-. left. reflexivity.
      + injection Hl as <-. left. reflexivity.
    - rewrite Hb in Hl. destruct (SpecEnc.oconcat _ fs) as [r|] eqn:Hr; [|discriminate]. injection Hl as <-. right.
      destruct (oconcat_each _ _ _ _ _ Hr f Hf) as (p & Hp1 & Hp2). rewrite (flat_type_is f id' Hfl Hty) in Hp1. apply Hp2, (IH n p Hp1).
  Qed.

  Fixpoint tag_names (n : nat) (id : nat) : option (list string) :=
    match n, nth_error E id with
    | O, _ => None
    | S _, None => Some []
    | S k, Some td =>
        match t_body td with
        | DPrim _ => Some []
        | DEnum _ _ => Some (match ya_tag (t_attrs td) with Some tg => [tg] | None => [] end)
        | DStruct fs => SpecEnc.oconcat (fun f => if ya_attribute (f_attrs f) then Some [field_name f] else osome (tag_names k) (flat_type f)) fs
        end
    end.
  Definition given_names (n : nat) (f : field) : option (list string) :=
    if ya_attribute (f_attrs f) then Some [field_name f] else osome (tag_names n) (flat_type f).
  Lemma flat_no_attr : forall f, flat_field f = true -> ya_attribute (f_attrs f) = false.
  Proof. intros f H. unfold flat_field in H. destruct (ya_attribute (f_attrs f)); [discriminate|reflexivity]. Qed.
  Lemma tag_names_all : forall id s, tag_name E id s -> forall n l, tag_names n id = Some l -> In s l.
  Proof.
    intros id s H. induction H as [id td fs f Ht Hb Hf Ha|id td vs d tg Ht Hb Htg|id td fs f id' s Ht Hb Hf Hfl Hty Hp IH];
      intros [|n] l Hl; try discriminate; cbn [tag_names] in Hl; rewrite Ht, Hb in Hl.
    - destruct (oconcat_each _ _ _ _ _ Hl f Hf) as (p & Hp1 & Hp2). rewrite Ha in Hp1. injection Hp1 as <-. apply Hp2. left. reflexivity.
    - rewrite Htg in Hl. injection Hl as <-. left. reflexivity.
    - destruct (oconcat_each _ _ _ _ _ Hl f Hf) as (p & Hp1 & Hp2). rewrite (flat_no_attr f Hfl), (flat_type_is f id' Hfl Hty) in Hp1.
      apply Hp2, (IH n p Hp1).
  Qed.
  Lemma given_names_all : forall f s, gives E f s -> forall n l, given_names n f = Some l -> In s l.
  Proof.
    intros f s [[Ha ->]|(Hfl & id & Hty & Ht)] n l Hl; unfold given_names in Hl.
    - rewrite Ha in Hl. injection Hl as <-. left. reflexivity.
    - rewrite (flat_no_attr f Hfl), (flat_type_is f id Hfl Hty) in Hl. exact (tag_names_all id s Ht n l Hl).
  Qed.

  Definition given_apart (n : nat) (f g : field) : bool :=
    match given_names n f, given_names n g with
    | Some a, Some b => forallb (fun s => negb (existsb (String.eqb s) b)) a
    | _, _ => false
    end.
  Lemma given_apart_ok : forall n f g s, given_apart n f g = true -> gives E f s -> gives E g s -> False.
  Proof.
    intros n f g s H Hf Hg. unfold given_apart in H. destruct (given_names n f) as [a|] eqn:Ha; [|discriminate].
    destruct (given_names n g) as [b|] eqn:Hb; [|discriminate]. rewrite forallb_forall in H.
    specialize (H s (given_names_all f s Hf n a Ha)). apply negb_true_iff in H. pose proof (given_names_all g s Hg n b Hb) as Hin.
    assert (existsb (String.eqb s) b = true); [|congruence]. apply existsb_exists. exists s. split; [exact Hin|apply String.eqb_refl].
  Qed.
  Fixpoint given_differ (n : nat) (fs : list field) : bool :=
    match fs with [] => true | f :: r => forallb (given_apart n f) r && given_differ n r end.
  Lemma given_differ_ok : forall n fs, given_differ n fs = true ->
    forall i j f g s, nth_error fs i = Some f -> nth_error fs j = Some g -> gives E f s -> gives E g s -> i = j.
  Proof.
    intros n. induction fs as [|h fs IH]; intros H i j f g s Hi Hj Hf Hg; [destruct i; discriminate|].
    cbn [given_differ] in H. apply andb_true_iff in H. destruct H as [H1 H2]. rewrite forallb_forall in H1.
    destruct i as [|i], j as [|j]; cbn [nth_error] in *; try reflexivity.
    - injection Hi as <-. destruct (given_apart_ok n h g s (H1 g (nth_error_In _ _ Hj)) Hf Hg).
    - injection Hj as <-. destruct (given_apart_ok n h f s (H1 f (nth_error_In _ _ Hi)) Hg Hf).
    - f_equal. eapply IH; eauto.
  Qed.

  Definition bareb (n : nat) (b : base) : bool :=
    match b with
    | BSimple _ => true
    | BUser id => match tag_parts n id with
                  | Some l => forallb (fun td => match ya_namespaces (t_attrs td) with [] => true | _ => false end) l
                  | None => false
                  end
    end.
  Lemma bareb_ok : forall n b, bareb n b = true -> bare E b.
  Proof.
    intros n b H id td -> Hp. cbn [bareb] in H. destruct (tag_parts n id) as [l|] eqn:Hl; [|discriminate]. rewrite forallb_forall in H.
    specialize (H td (tag_parts_all id td Hp n l Hl)). destruct (ya_namespaces (t_attrs td)); [reflexivity|discriminate].
  Qed.

  Definition writable_typeb (n : nat) (id : nat) (td : typedef) : bool :=
    let ra := t_attrs td in
    match t_body td with
    | DPrim _ => identifierb (t_name td)
    | DStruct fs =>
        wellnamedb ra (ya_prefix ra) (root_name td) && (negb (ya_flatten ra) || bareb n (BUser id)) &&
        forallb (fun f => wellnamedb ra (ya_prefix (f_attrs f)) (field_name f) &&
                          (negb (ya_attribute (f_attrs f)) || negb (String.eqb (field_name f) "xmlns")) &&
                          (negb (flat_field f) || match f_ty f with TBase _ => true | t => bareb n (base_of t) end)) fs &&
        given_differ n fs
    | DEnum vs _ =>
        wellnamedb ra (ya_prefix ra) (root_name td) && (negb (ya_flatten ra) || bareb n (BUser id)) &&
        match ya_tag ra with Some tg => identifierb tg && negb (String.eqb tg "xmlns") | None => true end &&
        forallb (fun v => match v_body v with
                          | VbUnit => true
                          | VbNew fl t => wellnamedb ra (ya_prefix (v_attrs v)) (variant_name v) && bareb n (base_of t)
                          | VbNamed fs => forallb (fun f => wellnamedb ra (ya_prefix (f_attrs f)) (field_name f)) fs
                          end) vs
    end.
  Lemma writable_typeb_ok : forall n id td, writable_typeb n id td = true -> writable_type E id td.
  Proof.
    intros n id td H. unfold writable_typeb in H. unfold writable_type. destruct (t_body td) as [fs|vs d|k]; [| |apply identifierb_ok; exact H].
    - rewrite !andb_true_iff in H. destruct H as [[[H1 H2] H3] H4].
      split; [apply wellnamedb_ok; exact H1|]. split; [intros Hf; rewrite Hf in H2; apply (bareb_ok n); exact H2|]. split; [|apply (given_differ_ok n); exact H4].
      intros f Hf. rewrite forallb_forall in H3. specialize (H3 f Hf). rewrite !andb_true_iff in H3. destruct H3 as [[H5 H6] H7].
      split; [apply wellnamedb_ok; exact H5|]. split; [intros Ha; rewrite Ha in H6; apply neqb_ok; exact H6|].
      intros Hff. rewrite Hff in H7. destruct (f_ty f); [exact I|..]; apply (bareb_ok n); exact H7.
    - rewrite !andb_true_iff in H. destruct H as [[[H1 H2] H3] H4].
      split; [apply wellnamedb_ok; exact H1|]. split; [intros Hf; rewrite Hf in H2; apply (bareb_ok n); exact H2|]. split.
      + intros tg Ht. rewrite Ht in H3. apply andb_true_iff in H3. split; [apply identifierb_ok|apply neqb_ok]; apply H3.
      + intros v Hv. rewrite forallb_forall in H4. specialize (H4 v Hv). destruct (v_body v) as [|fl t|fs]; [exact I| |].
        * apply andb_true_iff in H4. destruct H4 as [H5 H6]. split; [apply wellnamedb_ok; exact H5|apply (bareb_ok n); exact H6].
        * intros f Hf. rewrite forallb_forall in H4. apply wellnamedb_ok, H4, Hf.
  Qed.
  Definition writable_typesb (n : nat) : bool :=
    forallb good_declb (bindings E) && forallb (fun p => writable_typeb n (fst p) (snd p)) (combine (seq 0 (List.length E)) E).
  Lemma numbered_in : forall A (l : list A) i k a, nth_error l i = Some a -> In (k + i, a) (combine (seq k (List.length l)) l).
  Proof.
    intros A. induction l as [|b l IH]; intros [|i] k a H; try discriminate; cbn [nth_error] in H; cbn [List.length seq combine].
    - injection H as ->. left. rewrite Nat.add_0_r. reflexivity.
    - right. rewrite <- Nat.add_succ_comm. apply IH. exact H.
  Qed.
  Lemma writable_typesb_ok : forall n, writable_typesb n = true -> writable_types E.
  Proof.
    intros n H. apply andb_true_iff in H. destruct H as [H1 H2]. rewrite forallb_forall in H1, H2. split.
    - intros pu Hpu. apply good_declb_ok, H1, Hpu.
    - intros id td Htd. apply (writable_typeb_ok n), (H2 (id, td)), (numbered_in _ E id 0 td Htd).
  Qed.
End Flat.
Definition own_elementb (E : env) (id : nat) : bool :=
  match nth_error E id with
  | Some td => negb (ya_flatten (t_attrs td)) || match t_body td with DPrim _ => true | _ => false end
  | None => true
  end.
Lemma own_elementb_ok : forall E id, own_elementb E id = true -> own_element E id.
Proof.
  intros E id H td Htd Hf. unfold own_elementb in H. rewrite Htd, Hf in H. destruct (t_body td); try discriminate. eauto.
Qed.

Definition attribute_typeb (E : env) (b : base) : bool :=
  match b with
  | BSimple _ => true
  | BUser id =>
      match nth_error E id with
      | None => true
      | Some td => match t_body td with
                   | DStruct _ => false
                   | DEnum vs _ => forallb (fun v => match v_body v with VbUnit => true | _ => false end) vs
                   | DPrim _ => true
                   end
      end
  end.
Lemma attribute_typeb_ok : forall E b, attribute_typeb E b = true -> attribute_type E b.
Proof.
  intros E b H id td -> Htd. cbn in H. rewrite Htd in H. destruct (t_body td) as [fs|vs d|k]; [discriminate| |exact I].
  intros v Hv. rewrite forallb_forall in H. specialize (H v Hv). destruct (v_body v); [reflexivity|discriminate|discriminate].
Qed.
Definition plain_stringsb (E : env) : bool :=
  forallb (fun td => match t_body td with
    | DStruct fs => forallb (fun f => negb (ya_cdata (f_attrs f)) && match ya_default (f_attrs f) with None => true | _ => false end &&
                                      match ya_skip_if (f_attrs f) with None => true | _ => false end &&
                                      (negb (ya_attribute (f_attrs f)) || attribute_typeb E (base_of (f_ty f)))) fs
    | DEnum vs _ => forallb (fun v => legal (variant_name v) && match ya_prefix (v_attrs v) with Some p => identifierb p | None => true end) vs
    | DPrim _ => true
    end) E.
Lemma plain_stringsb_ok : forall E, plain_stringsb E = true -> plain_strings E.
Proof.
  intros E H id td Htd. unfold plain_stringsb in H. rewrite forallb_forall in H. specialize (H td (nth_error_In _ _ Htd)).
  destruct (t_body td) as [fs|vs d|k]; [| |exact I].
  - intros f Hf. rewrite forallb_forall in H. specialize (H f Hf). rewrite !andb_true_iff, negb_true_iff in H. destruct H as [[[H1 H2] H3] H4].
    split; [exact H1|]. split; [destruct (ya_default (f_attrs f)); [discriminate|reflexivity]|].
    split; [destruct (ya_skip_if (f_attrs f)); [discriminate|reflexivity]|]. intros Ha. rewrite Ha in H4. apply attribute_typeb_ok. exact H4.
  - intros v Hv. rewrite forallb_forall in H. specialize (H v Hv). apply andb_true_iff in H. destruct H as [H1 H2]. split; [exact H1|].
    intros p Hp. rewrite Hp in H2. apply identifierb_ok. exact H2.
Qed.

Definition legal_eventb (e : wevent) : bool :=
  match e with
  | WChars s => legal s
  | WCData s => legal s && negb (contains "]]>" s)
  | WStart n a m => forallb (fun t => legal (at_value t)) a
  | _ => true
  end.
Lemma legal_eventb_ok : forall l, forallb legal_eventb l = true -> forall e, In e l -> legal_event e.
Proof.
  intros l H e He. rewrite forallb_forall in H. specialize (H e He). destruct e; cbn [legal_eventb legal_event] in *; try exact I; try exact H.
  - rewrite forallb_forall in H. exact H.
  - apply andb_true_iff in H. rewrite negb_true_iff in H. exact H.
Qed.

(** ** Quiet names *)
Definition quietb (s : string) : bool :=
  (all_chars (fun c => negb (Ascii.eqb c "<")) s && match s with EmptyString => false | String c _ => negb (Ascii.eqb c "!") end)%bool.
Definition quiet_optb (o : option string) : bool := match o with Some s => quietb s | None => true end.
Definition quiet_itemb (l : string) (a : yattr) : bool := (quietb l && quiet_optb (ya_rename a) && quiet_optb (ya_prefix a))%bool.
Definition quiet_typeb (td : typedef) : bool :=
  (quiet_itemb (t_name td) (t_attrs td) && quiet_optb (ya_tag (t_attrs td)) &&
   forallb (fun pu => all_chars (fun c => negb (Ascii.eqb c "<")) (fst pu)) (ya_namespaces (t_attrs td)) &&
   match t_body td with
   | DStruct fs => forallb (fun f => quiet_itemb (f_label f) (f_attrs f)) fs
   | DEnum vs _ => forallb (fun v => quiet_itemb (v_label v) (v_attrs v) &&
       match v_body v with VbNamed fs => forallb (fun f => quiet_itemb (f_label f) (f_attrs f)) fs | _ => true end) vs
   | DPrim _ => true
   end)%bool.
Lemma quietb_ok : forall s, quietb s = true -> quiet s.
Proof.
  intros s H. apply andb_true_iff in H. destruct H as [H1 H2]. split; [exact H1|]. destruct s as [|c s]; [discriminate|].
  intros ->. discriminate.
Qed.
Lemma quiet_optb_ok : forall o, quiet_optb o = true -> quiet_opt o.
Proof. intros o H s ->. apply quietb_ok. exact H. Qed.
Lemma quiet_itemb_ok : forall l a, quiet_itemb l a = true -> quiet_item l a.
Proof.
  intros l a H. unfold quiet_itemb in H. rewrite !andb_true_iff in H. destruct H as [[H1 H2] H3].
  split; [apply quietb_ok; exact H1|]. split; apply quiet_optb_ok; assumption.
Qed.
Lemma quiet_namesb_ok : forall E, forallb quiet_typeb E = true -> quiet_names E.
Proof.
  intros E H id td Htd. apply nth_error_In in Htd. rewrite forallb_forall in H. specialize (H td Htd).
  unfold quiet_typeb in H. rewrite !andb_true_iff in H. destruct H as [[[H1 H2] H3] H4].
  split; [apply quiet_itemb_ok; exact H1|]. split; [apply quiet_optb_ok; exact H2|].
  split; [rewrite forallb_forall in H3; exact H3|]. destruct (t_body td); [| |exact I]; rewrite forallb_forall in H4.
  - intros f Hf. apply quiet_itemb_ok, H4, Hf.
  - intros v Hv. specialize (H4 v Hv). apply andb_true_iff in H4. destruct H4 as [H4 H5]. split; [apply quiet_itemb_ok; exact H4|].
    destruct (v_body v); try exact I. rewrite forallb_forall in H5. intros f Hf. apply quiet_itemb_ok, H5, Hf.
Qed.
