(** * Deciding whether a document conforms to a type.

    Sound boolean versions of [Writable] (SpecText.v) and [Conforms]
    (SpecValue.v), used by the examples. *)
From Verif Require Import Str Num Xml XmlText Reader Schema De SpecTree SpecText SpecStruct SpecValue TreeFacts TextProofs RoundCheck.
Open Scope list_scope.
Open Scope bool_scope.

Lemma opt_eqb_ok : forall a b, opt_eqb a b = true -> a = b.
Proof. intros [s|] [t|] H; try discriminate; [apply String.eqb_eq in H; congruence|reflexivity]. Qed.
Lemma opt_eqb_same : forall a, opt_eqb a a = true.
Proof. intros [s|]; [apply String.eqb_refl|reflexivity]. Qed.

Definition good_nameb (n : name) : bool :=
  xml_name (name_repr n) && (identifierb (n_local n) && match n_prefix n with Some p => identifierb p | None => true end) &&
  (let q := qname (name_repr n) in
   String.eqb (n_local q) (n_local n) && opt_eqb (n_ns q) None && opt_eqb (n_prefix q) (n_prefix n)).
Lemma good_nameb_ok : forall n, good_nameb n = true -> good_name n.
Proof.
  intros n H. unfold good_nameb in H. cbv zeta in H. rewrite !andb_true_iff in H. destruct H as ((Hx & Hi & Hj) & (Hl & Hn) & Hp).
  split; [split; [exact Hx|split; [apply identifierb_ok; exact Hi|destruct (n_prefix n); [apply identifierb_ok; exact Hj|exact I]]]|].
  destruct (qname (name_repr n)) as [l u p]. cbn [n_local n_ns n_prefix] in *.
  apply String.eqb_eq in Hl. apply opt_eqb_ok in Hn, Hp. subst. reflexivity.
Qed.

Definition bindsb (nss : nsstack) (n : name) : bool :=
  match n_prefix n with Some p => match lookup_prefix nss p with Some _ => true | None => false end | None => true end.
Lemma bindsb_ok : forall nss n, bindsb nss n = true -> bound nss n.
Proof. intros nss n. unfold bindsb, bound. destruct (n_prefix n) as [p|]; [|auto]. destruct (lookup_prefix nss p); discriminate. Qed.

Definition good_attrb (nss : nsstack) (a : attr) : bool :=
  good_nameb (at_name a) && bindsb nss (at_name a) && legal (at_value a) && negb (opt_eqb (n_prefix (at_name a)) (Some "xmlns")) &&
  (negb (opt_eqb (n_prefix (at_name a)) None) || negb (String.eqb (n_local (at_name a)) "xmlns")).
Lemma good_attrb_ok : forall nss a, good_attrb nss a = true -> good_attr nss a.
Proof.
  intros nss a H. unfold good_attrb in H. rewrite !andb_true_iff in H. destruct H as ((((Hn & Hb) & Hl) & Hp) & Hx).
  repeat split; try (apply good_nameb_ok; exact Hn).
  - apply bindsb_ok. exact Hb.
  - exact Hl.
  - intros Heq. rewrite Heq in Hp. discriminate.
  - intros Heq Hlo. rewrite Heq, Hlo in Hx. discriminate.
Qed.

Fixpoint nodupb (l : list string) : bool :=
  match l with [] => true | s :: r => negb (existsb (String.eqb s) r) && nodupb r end.
Lemma nodupb_ok : forall l, nodupb l = true -> NoDup l.
Proof.
  induction l as [|s r IH]; intros H; constructor; cbn [nodupb] in H; apply andb_true_iff in H; destruct H as [Hs Hr]; [|auto].
  intros Hin. apply negb_true_iff in Hs. assert (existsb (String.eqb s) r = true); [|congruence].
  apply existsb_exists. exists s. split; [exact Hin|apply String.eqb_refl].
Qed.

Fixpoint writableb (nss : nsstack) (w : wnode) {struct w} : bool :=
  match w with
  | WTxt s => legal s
  | WCd s => legal s && negb (contains "]]>" s)
  | WElem n a m ks =>
      let st := declare nss m :: nss in
      good_nameb n && bindsb st n && forallb (good_attrb st) a && nodupb (map (fun t => name_repr (at_name t)) a) &&
      forallb good_declb (declare nss m) && forallb (writableb st) ks
  end.
Lemma writableb_ok : forall w nss, writableb nss w = true -> Writable nss w.
Proof.
  intros w. induction w as [s|s|n a m ks IH] using wnode_ind'; intros nss H; cbn [writableb] in H.
  - apply w_txt. exact H.
  - apply andb_true_iff in H. destruct H as [Hl Hc]. apply w_cd; [exact Hl|]. apply negb_true_iff. exact Hc.
  - cbv zeta in H. rewrite !andb_true_iff in H. destruct H as (((((H1 & H2) & H3) & H4) & H5) & H6).
    rewrite forallb_forall in H3, H5, H6. apply w_elem.
    + apply good_nameb_ok. exact H1.
    + apply bindsb_ok. exact H2.
    + intros t Ht. apply good_attrb_ok, H3, Ht.
    + apply nodupb_ok. exact H4.
    + intros p Hp. apply good_declb_ok, H5, Hp.
    + intros k Hk. apply IH; auto.
Qed.

Definition is_text (l : list node) : bool := match l with [Txt _] => true | _ => false end.
Definition at_most_text (l : list node) : bool := match l with [] | [Txt _] => true | _ => false end.
Lemma at_most_text_ok : forall l, at_most_text l = true -> l = [] \/ exists s, l = [Txt s].
Proof. intros [|[n a m ks|s] [|k r]] H; try discriminate; [left; reflexivity|right; exists s; reflexivity]. Qed.

Fixpoint alienb (vs : list variant) (k : node) {struct k} : bool :=
  match k with
  | Txt s => match variant_for vs s with None => true | Some _ => false end
  | Elem n _ _ ks => match variant_for vs (n_local n) with None => forallb (alienb vs) ks | Some _ => false end
  end.
Lemma alienb_ok : forall vs k, alienb vs k = true -> alien vs k.
Proof.
  intros vs k. induction k as [s|n a m ks IH] using node_ind'; intros H; cbn [alienb] in H.
  - apply alien_txt. destruct (variant_for vs s); [discriminate|reflexivity].
  - destruct (variant_for vs (n_local n)) eqn:Hv; [discriminate|]. apply alien_elem; [exact Hv|].
    rewrite forallb_forall in H. intros k Hk. apply IH; auto.
Qed.

Definition unit_or_none (b : option (nat * vbody)) : bool :=
  match b with None | Some (_, VbUnit) => true | _ => false end.
Definition not_unit (b : option (nat * vbody)) : bool :=
  match b with Some (_, VbUnit) => false | _ => true end.
Definition not_user (b : option (nat * vbody)) : bool :=
  match b with
  | Some (_, VbNew _ t) => match base_of t with BUser _ => false | _ => true end
  | _ => true
  end.

Section Fitsb.
  Variable x : ext.
  Variable E : env.
  Variable attr_fine : nat -> string -> Prop.
  Variable flat_fine : nat -> node -> Prop.
  Variable af : nat -> string -> bool.
  Variable ff : nat -> node -> bool.
  Hypothesis Haf : forall id s, af id s = true -> attr_fine id s.
  Hypothesis Hff : forall id t, ff id t = true -> flat_fine id t.

  Definition attrs_fineb (fs : list field) (attrs : list attr) : bool :=
    forallb (fun f => forallb (fun a =>
      negb (ya_attribute (f_attrs f)) || negb (String.eqb (n_local (at_name a)) (snd (flabel ya0 f))) ||
      match base_of (f_ty f) with
      | BSimple _ => true
      | BUser id => match f_ty f with TVec _ => forallb (af id) (split_ws (at_value a)) | _ => af id (at_value a) end
      end) attrs) fs.
  Lemma attrs_fineb_ok : forall fs attrs, attrs_fineb fs attrs = true -> attrs_fine attr_fine fs attrs.
  Proof.
    intros fs attrs H f a id Hf Ha Hat Hn Hb. unfold attrs_fineb in H. rewrite forallb_forall in H. specialize (H f Hf). cbv beta in H.
    rewrite forallb_forall in H. specialize (H a Ha). cbv beta in H. rewrite Hat, Hn, String.eqb_refl, Hb in H. cbn [negb orb] in H.
    destruct (f_ty f); try (apply Haf; exact H). rewrite forallb_forall in H. intros s Hs. apply Haf, H, Hs.
  Qed.

  Definition tidyb (ra : yattr) (fs : list field) (k : node) : bool :=
    match k with
    | Txt _ => true
    | Elem n attrs _ kids =>
        match field_for ra fs n with
        | None => true
        | Some (_, f) =>
            match base_of (f_ty f) with
            | BSimple s => match kids with [Txt t] => match visit_simple x s t with Ok _ => true | _ => false end | _ => false end
            | BUser id =>
                match nth_error E id with
                | None => false
                | Some td =>
                    match t_body td, ya_tag (t_attrs td) with
                    | DStruct _, _ => true
                    | DEnum vs _, None => match kids with [Txt s] => not_unit (variant_for vs s) | _ => true end
                    | DEnum vs _, Some tg =>
                        forallb (fun a => negb (String.eqb (n_local (at_name a)) tg) || not_unit (variant_for vs (at_value a))) attrs
                    | DPrim _, _ => negb (is_text kids)
                    end
                end
            end
        end
    end.
  Lemma tidyb_ok : forall ra fs k, tidyb ra fs k = true -> Tidy x E ra fs k.
  Proof.
    intros ra fs [n attrs m kids|s] H; [|exact I]. cbn [tidyb Tidy] in *. intros i f Hf. rewrite Hf in H.
    destruct (base_of (f_ty f)) as [s|id].
    - destruct kids as [|[|t] [|]]; try discriminate. destruct (visit_simple x s t) as [v|] eqn:Hv; [|discriminate].
      exists t, v. split; [reflexivity|exact Hv].
    - destruct (nth_error E id) as [td|]; [|discriminate]. exists td. split; [reflexivity|].
      destruct (t_body td) as [gs|vs dflt|pk]; [exact I| |].
      + destruct (ya_tag (t_attrs td)) as [tg|].
        * intros a j Ha Hn Hv. rewrite forallb_forall in H. specialize (H a Ha). cbv beta in H.
          rewrite Hn, String.eqb_refl, Hv in H. discriminate.
        * intros s j -> Hv. rewrite Hv in H. discriminate.
      + intros s ->. discriminate.
  Qed.

  Definition flatb (f : field) (t : node) : bool :=
    negb (flat_field f) ||
    match f_ty f with TBase (BUser id) | TOpt (BUser id) => ff id t | _ => false end.

  Definition kidb (rec : nat -> node -> bool) (ra : yattr) (fs : list field) (k : node) : bool :=
    match k with
    | Txt s => negb (String.eqb s "")
    | Elem n _ _ kids =>
        match field_for ra fs n with
        | None => true
        | Some (_, f) =>
            match base_of (f_ty f) with
            | BSimple _ => negb (opt_eqb (n_ns n) (Some "")) && at_most_text kids
            | BUser id => rec id k
            end
        end
    end.
  Definition payloadb (rec : nat -> node -> bool) (vs : list variant) (k : node) : bool :=
    alienb vs k ||
    match k with
    | Txt _ => false
    | Elem n _ _ kids =>
        match variant_for vs (n_local n) with
        | Some (_, VbNew _ t) => match base_of t with BSimple _ => at_most_text kids | BUser id => rec id k end
        | _ => false
        end
    end.

  Fixpoint fitsb_tree (N : nat) (id : nat) (t : node) {struct N} : bool :=
    match N, t, nth_error E id with
    | S N', Elem n attrs m kids, Some td =>
        let ra := t_attrs td in
        match t_body td with
        | DStruct fs =>
            (label_eqb (elabel n) (root_label td) || match field_for ra fs n with None => true | Some _ => false end) &&
            attrs_fineb fs attrs && forallb (kidb (fitsb_tree N') ra fs) kids &&
            (negb (flattens fs) ||
             (forallb (fun f => flatb f (Elem n attrs m (filter (is_left ra fs) kids))) fs && forallb (tidyb ra fs) kids))
        | DEnum vs _ =>
            match ya_tag ra with
            | Some tg =>
                match kids with [] => true | _ => false end &&
                forallb (fun a => negb (String.eqb (n_local (at_name a)) tg) || unit_or_none (variant_for vs (at_value a))) attrs
            | None =>
                match variant_for vs (n_local n) with
                | Some _ => false
                | None =>
                    match kids with
                    | [Txt s] => not_user (variant_for vs s)
                    | _ => forallb (payloadb (fitsb_tree N') vs) kids
                    end
                end
            end
        | DPrim _ => at_most_text kids
        end
    | _, _, _ => false
    end.
  Theorem fitsb_tree_ok : forall N id t, fitsb_tree N id t = true -> Fits x E attr_fine flat_fine id t.
  Proof.
    induction N as [|N IH]; intros id [n attrs m kids|s] H; try discriminate; cbn [fitsb_tree] in H.
    destruct (nth_error E id) as [td|] eqn:Htd; [|discriminate]. cbv zeta in H. destruct (t_body td) as [fs|vs dflt|pk] eqn:Hb.
    - rewrite !andb_true_iff in H. destruct H as (((Hn & Ha) & Hk) & Hf). eapply fits_struct; eauto.
      + apply orb_true_iff in Hn. destruct Hn as [Hn|Hn]; [left; apply label_eqb_ok; exact Hn|right].
        destruct (field_for (t_attrs td) fs n); [discriminate|reflexivity].
      + apply attrs_fineb_ok. exact Ha.
      + intros k Hin. rewrite forallb_forall in Hk. specialize (Hk k Hin). destruct k as [n' a' m' ks|s]; cbn [kidb] in Hk.
        * destruct (field_for (t_attrs td) fs n') as [[i f]|] eqn:Hff'; [|apply kid_other; exact Hff'].
          destruct (base_of (f_ty f)) as [s|id'] eqn:Hbf.
          -- apply andb_true_iff in Hk. destruct Hk as [Hns Ht]. eapply kid_simple; eauto.
             ++ intros Heq. rewrite Heq, opt_eqb_same in Hns. discriminate.
             ++ apply at_most_text_ok. exact Ht.
          -- eapply kid_user; eauto.
        * apply kid_txt. apply neqb_ok. exact Hk.
      + intros Hfl. rewrite Hfl in Hf. cbn [negb orb] in Hf. apply andb_true_iff in Hf. destruct Hf as [Hf Ht].
        rewrite forallb_forall in Hf, Ht. split.
        * intros f Hin Hflat. specialize (Hf f Hin). cbv beta in Hf. unfold flatb in Hf. rewrite Hflat in Hf. cbn [negb orb] in Hf.
          destruct (f_ty f) as [[|id']|[|id']|b|b]; try discriminate; exists id'; split; auto.
        * intros k Hin. apply tidyb_ok, Ht, Hin.
    - destruct (ya_tag (t_attrs td)) as [tg|] eqn:Htg.
      + apply andb_true_iff in H. destruct H as [Hk H]. destruct kids; [|discriminate]. eapply fits_tagged; eauto.
        intros a b Ha Hn Hv. rewrite forallb_forall in H. specialize (H a Ha). cbv beta in H. rewrite Hn, String.eqb_refl, Hv in H.
        cbn [negb orb] in H. destruct b as [[i [|fl t|gs]]|]; try discriminate; [right; eexists; reflexivity|left; reflexivity].
      + destruct (variant_for vs (n_local n)) eqn:Hv; [discriminate|].
        assert (Hp : forallb (payloadb (fitsb_tree N) vs) kids = true -> (forall s, kids <> [Txt s]) ->
                     Fits x E attr_fine flat_fine id (Elem n attrs m kids)).
        { clear H. intros H Hnt. eapply fits_payload; eauto. intros k Hk. rewrite forallb_forall in H. specialize (H k Hk).
          unfold payloadb in H. apply orb_true_iff in H. destruct H as [H|H]; [apply payload_other, alienb_ok; exact H|].
          destruct k as [n' a' m' ks|s]; [|discriminate]. destruct (variant_for vs (n_local n')) as [[i [|fl t|gs]]|] eqn:Hvn; try discriminate.
          destruct (base_of t) as [s|id'] eqn:Hbt; [eapply payload_simple; eauto; apply at_most_text_ok; exact H|eapply payload_user; eauto]. }
        destruct kids as [|[n' a' m' ks|s] [|k r]]; try (apply Hp; [exact H|discriminate]).
        eapply fits_unit; eauto. intros (i & fl & t & id' & Hs & Hbt). rewrite Hs in H. cbn [not_user] in H. rewrite Hbt in H. discriminate.
    - eapply fits_prim; eauto. apply at_most_text_ok. exact H.
  Qed.
End Fitsb.

(** [N] bounds the depth of the tree.  Only attribute values that need no
    escaping are recognised. *)
Section Conformsb.
  Variable x : ext.
  Variable E : env.
  Fixpoint conformsb (N k id : nat) (t : node) : bool :=
    match k with
    | O => fitsb_tree x E (fun _ _ => false) (fun _ _ => false) N id t
    | S k' =>
        fitsb_tree x E
          (fun id s => match nth_error E id with
                       | Some td => identifierb (t_name td) && String.eqb s (esc_pcdata s) && legal s && conformsb N k' id (wrapped td s)
                       | None => false
                       end)
          (fun id r => writableb [] (wn r) && conformsb N k' id (reread [] (wn r)))
          N id t
    end.
  Theorem conformsb_ok : forall N k id t, conformsb N k id t = true -> Conforms x E k id t.
  Proof.
    intros N. induction k as [|k IH]; intros id t H; cbn [conformsb Conforms] in *; eapply fitsb_tree_ok; eauto; try discriminate; cbv beta.
    - intros id' s Hs. destruct (nth_error E id') as [td|] eqn:Htd; [|discriminate]. rewrite !andb_true_iff in Hs.
      destruct Hs as (((Hi & He) & Hl) & Hc). exists td, s. split; [reflexivity|]. split; [apply identifierb_ok; exact Hi|].
      split; [apply String.eqb_eq; exact He|]. split; [exact Hl|apply IH; exact Hc].
    - intros id' r Hr. apply andb_true_iff in Hr. destruct Hr as [Hw Hc]. split; [apply writableb_ok; exact Hw|apply IH; exact Hc].
  Qed.
End Conformsb.
