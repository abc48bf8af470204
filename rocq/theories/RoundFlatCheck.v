(** * Deciding the round-trip conditions of types with flattened fields.

    Boolean versions of [all_ok], [root_ok] and [Lasts] (SpecRoundFlat.v), used
    by the examples. *)
From Verif Require Import Str Num Xml XmlText Reader Schema Ser SpecTree SpecText SpecNum SpecTyped SpecStruct SpecSer SpecValue
  SpecEnc SpecRound SpecRoundFlat RoundCheck.
Open Scope list_scope.
Open Scope bool_scope.

Lemma elem_fieldb_ok : forall f, elem_field f -> elem_fieldb f = true.
Proof. intros f [H1 H2]. unfold elem_fieldb. rewrite H1, H2. reflexivity. Qed.
Definition imp (a b : bool) : bool := negb a || b.
Lemma imp_ok : forall a b, imp a b = true -> a = true -> b = true.
Proof. intros a b H ->. exact H. Qed.

(** ** Types that share an element *)
Definition user_of (b : base) : list nat := match b with BUser id => [id] | BSimple _ => [] end.
(** The types spliced directly into type [id]. *)
Definition direct (E : env) (id : nat) : list nat :=
  match nth_error E id with
  | Some td =>
      match t_body td with
      | DStruct fs => flat_map (fun f => if flat_field f then user_of (base_of (f_ty f)) else []) fs
      | _ => []
      end
  | None => []
  end.
Lemma direct_ok : forall E id td fs f id', struct_type E id td fs -> In f fs -> flat_field f = true ->
  base_of (f_ty f) = BUser id' -> In id' (direct E id).
Proof.
  intros E id td fs f id' [H1 H2] Hf Hff Hb. unfold direct. rewrite H1, H2. apply in_flat_map. exists f. split; [exact Hf|].
  rewrite Hff, Hb. left. reflexivity.
Qed.
Definition memb (n : nat) (l : list nat) : bool := existsb (Nat.eqb n) l.
Lemma memb_ok : forall n l, memb n l = true -> In n l.
Proof. intros n l H. apply existsb_exists in H. destruct H as (m & Hm & He). apply Nat.eqb_eq in He. congruence. Qed.
Fixpoint grow (E : env) (n : nat) (l : list nat) : list nat :=
  match n with
  | O => l
  | S n' => grow E n' (nodup Nat.eq_dec (l ++ flat_map (direct E) l))
  end.
Definition closed (E : env) (l : list nat) : bool := forallb (fun i => forallb (fun j => memb j l) (direct E i)) l.
(** Every type spliced into type [id], at any depth. *)
Definition inside (E : env) (id : nat) : list nat := grow E (List.length E) (direct E id).
Definition insidep (E : env) (id : nat) (p : nat -> bool) : bool :=
  let l := inside E id in closed E l && forallb (fun j => memb j l) (direct E id) && forallb p l.
Lemma spliced_closed : forall E id id', Spliced E id id' -> forall l, closed E l = true ->
  (In id l -> In id' l) /\ (forallb (fun j => memb j l) (direct E id) = true -> In id' l).
Proof.
  intros E id id' H. induction H as [id td fs f id' Hst Hf Hff Hb|id id' id'' H1 IH1 H2 IH2]; intros l Hl.
  - assert (Hd := direct_ok _ _ _ _ _ _ Hst Hf Hff Hb).
    assert (Hs : forallb (fun j => memb j l) (direct E id) = true -> In id' l).
    { intros H. rewrite forallb_forall in H. apply memb_ok, H. exact Hd. }
    split; [|exact Hs]. intros Hi. apply Hs. unfold closed in Hl. rewrite forallb_forall in Hl. apply (Hl id Hi).
  - destruct (IH1 l Hl) as [A B], (IH2 l Hl) as [C _]. split; intros H; apply C; auto.
Qed.
Lemma insidep_ok : forall E id p, insidep E id p = true -> forall id', Spliced E id id' -> p id' = true.
Proof.
  intros E id p H id' Hs. unfold insidep in H. rewrite !andb_true_iff in H. destruct H as [[H1 H2] H3].
  rewrite forallb_forall in H3. apply H3. apply (spliced_closed _ _ _ Hs _ H1). exact H2.
Qed.
Lemma shares_ok : forall E id p, p id && insidep E id p = true -> forall id', shares E id id' -> p id' = true.
Proof.
  intros E id p H id' Hs. apply andb_true_iff in H. destruct H as [H1 H2].
  destruct Hs as [->|Hs]; [exact H1|exact (insidep_ok _ _ _ H2 _ Hs)].
Qed.

(** ** Type definitions *)
Definition ns_fits (td : typedef) (l : string * string) : bool :=
  String.eqb (fst l) "" ||
  match ya_prefix (t_attrs td) with
  | Some p => match ns_get (ya_namespaces (t_attrs td)) p with Some u => String.eqb u (fst l) | None => false end
  | None => false
  end.
Lemma ns_fits_ok : forall td l, ns_fits td l = true ->
  fst l = "" \/ exists p, ya_prefix (t_attrs td) = Some p /\ ns_get (ya_namespaces (t_attrs td)) p = Some (fst l).
Proof.
  intros td l H1. unfold ns_fits in H1.
  apply orb_true_iff in H1. destruct H1 as [H1|H1]; [left; apply String.eqb_eq; exact H1|right].
  destruct (ya_prefix (t_attrs td)) as [p|]; [|discriminate]. exists p. split; [reflexivity|].
  destruct (ns_get _ p) as [u|]; [|discriminate]. apply String.eqb_eq in H1. congruence.
Qed.
Definition takes_ownb (td : typedef) (l : string * string) : bool :=
  match t_body td with
  | DStruct fs => label_eqb l (root_label td) ||
      forallb (fun f => negb (elem_fieldb f) || negb (label_eqb (flabel (t_attrs td) f) l)) fs
  | DEnum vs _ =>
      ns_fits td l &&
      match ya_tag (t_attrs td) with
      | Some _ => true
      | None => forallb (fun v => negb (readableb v) || negb (String.eqb (variant_name v) (snd l))) vs
      end
  | DPrim _ => true
  end.
Lemma takes_ownb_ok : forall td l, takes_ownb td l = true -> takes_own td l.
Proof.
  intros td l H. unfold takes_ownb in H. unfold takes_own. destruct (t_body td) as [fs|vs d|k]; [| |exact I].
  - apply orb_true_iff in H. destruct H as [H|H]; [left; apply label_eqb_ok; exact H|right].
    intros f Hf He. rewrite forallb_forall in H. specialize (H f Hf). rewrite (elem_fieldb_ok f He) in H.
    apply label_neqb_ok. apply negb_true_iff. exact H.
  - apply andb_true_iff in H. destruct H as [H1 H2]. split; [apply ns_fits_ok; exact H1|].
    intros Ht v Hv Hr. rewrite Ht in H2. rewrite forallb_forall in H2. specialize (H2 v Hv).
    rewrite (proj2 (readableb_ok v) Hr) in H2. apply neqb_ok. exact H2.
Qed.
Definition on_type (E : env) (id : nat) (p : typedef -> bool) : bool :=
  match nth_error E id with Some td => p td | None => true end.
Lemma on_type_ok : forall E id p td, on_type E id p = true -> nth_error E id = Some td -> p td = true.
Proof. intros E id p td H Htd. unfold on_type in H. rewrite Htd in H. exact H. Qed.
Definition takesb (E : env) (id : nat) (l : string * string) : bool :=
  on_type E id (fun td => takes_ownb td l) &&
  insidep E id (fun j => on_type E j (fun td => takes_ownb td l && ns_fits td l)).
Lemma takesb_ok : forall E id l, takesb E id l = true -> takes E id l.
Proof.
  intros E id l H. apply andb_true_iff in H. destruct H as [H1 H2]. split.
  - intros td Htd. apply takes_ownb_ok. exact (on_type_ok _ _ _ _ H1 Htd).
  - intros id' td Hs Htd. assert (H := on_type_ok _ _ _ _ (insidep_ok _ _ _ H2 _ Hs) Htd). cbn beta in H.
    apply andb_true_iff in H. split; [apply takes_ownb_ok|apply ns_fits_ok]; apply H.
Qed.
Definition takes_baseb E b l := match b with BSimple _ => true | BUser id => takesb E id l end.
Lemma takes_baseb_ok : forall E b l, takes_baseb E b l = true -> takes_base E b l.
Proof. intros E [s|id] l H; [exact I|apply takesb_ok; exact H]. Qed.

Definition elem_fineb (E : env) (ra : yattr) (f : field) : bool :=
  identifierb (field_name f) && prefix_fineb E ra (ya_prefix (f_attrs f)) &&
  not_optvec (f_ty f) && takes_baseb E (base_of (f_ty f)) (flabel ra f).
Lemma elem_fineb_ok : forall E ra f, elem_fineb E ra f = true -> elem_fine E ra f.
Proof.
  intros E ra f H. unfold elem_fineb in H. rewrite !andb_true_iff in H. destruct H as [[[H1 H2] H4] H5].
  split; [apply identifierb_ok; exact H1|]. split; [apply prefix_fineb_ok; exact H2|].
  split; [apply not_optvec_ok; exact H4|apply takes_baseb_ok; exact H5].
Qed.
Definition flat_fineb (E : env) (f : field) : bool :=
  negb (ya_text (f_attrs f)) && negb (ya_cdata (f_attrs f)) &&
  match f_ty f with
  | TBase (BUser id) | TOpt (BUser id) =>
      on_type E id (fun td => match t_body td with DPrim _ => false | _ => true end)
  | _ => false
  end.
Lemma flat_fineb_ok : forall E f, flat_fineb E f = true -> flat_fine E f.
Proof.
  intros E f H. unfold flat_fineb in H. rewrite !andb_true_iff, !negb_true_iff in H. destruct H as [[H1 H2] H3].
  split; [exact H1|]. split; [exact H2|].
  destruct (f_ty f) as [[|id]|[|id]|b|b]; try discriminate; exists id; (split; [auto|]);
    intros td Htd k Hk; assert (H := on_type_ok _ _ _ _ H3 Htd); cbn beta in H; rewrite Hk in H; discriminate.
Qed.

Definition clashing (ra : yattr) (f g : field) : bool :=
  elem_fieldb f && elem_fieldb g && label_eqb (flabel ra f) (flabel ra g) ||
  ya_attribute (f_attrs f) && ya_attribute (f_attrs g) && String.eqb (field_name f) (field_name g) ||
  ya_text (f_attrs f) && ya_text (f_attrs g).
Fixpoint clashless (ra : yattr) (fs : list field) : bool :=
  match fs with [] => true | f :: r => forallb (fun g => negb (clashing ra f g)) r && clashless ra r end.
Lemma clashing_is : forall ra f g,
     (elem_field f /\ elem_field g /\ flabel ra f = flabel ra g) \/
     (ya_attribute (f_attrs f) = true /\ ya_attribute (f_attrs g) = true /\ field_name f = field_name g) \/
     (ya_text (f_attrs f) = true /\ ya_text (f_attrs g) = true) -> clashing ra f g = true /\ clashing ra g f = true.
Proof.
  intros ra f g H. unfold clashing, label_eqb.
  destruct H as [(H1 & H2 & H3)|[(H1 & H2 & H3)|(H1 & H2)]].
  - apply elem_fieldb_ok in H1, H2. rewrite H1, H2, H3, !String.eqb_refl. split; reflexivity.
  - rewrite H1, H2, H3, !String.eqb_refl. rewrite !orb_true_r. split; reflexivity.
  - rewrite H1, H2, !orb_true_r. split; reflexivity.
Qed.
Lemma clashless_ok : forall ra fs, clashless ra fs = true ->
  forall i j f g, nth_error fs i = Some f -> nth_error fs j = Some g ->
  clashing ra f g = true -> clashing ra g f = true -> i = j.
Proof.
  intros ra. induction fs as [|h fs IH]; intros H i j f g Hi Hj Hc Hc'; [destruct i; discriminate|].
  cbn [clashless] in H. apply andb_true_iff in H. destruct H as [H1 H2]. rewrite forallb_forall in H1.
  destruct i as [|i], j as [|j]; cbn [nth_error] in *; try reflexivity.
  - injection Hi as <-. specialize (H1 g (nth_error_In _ _ Hj)). rewrite Hc in H1. discriminate.
  - injection Hj as <-. specialize (H1 f (nth_error_In _ _ Hi)). rewrite Hc' in H1. discriminate.
  - f_equal. eapply IH; eauto.
Qed.

Definition struct_okb (E : env) (ra : yattr) (fs : list field) : bool :=
  negb (ya_flatten ra) &&
  forallb (fun f => if ya_attribute (f_attrs f) then attribute_field_fineb ra f
                    else if ya_flatten (f_attrs f) then flat_fineb E f else elem_fineb E ra f) fs &&
  clashless ra fs.
Lemma struct_okb_ok : forall E ra fs, struct_okb E ra fs = true -> struct_ok E ra fs.
Proof.
  intros E ra fs H. unfold struct_okb in H. rewrite !andb_true_iff in H. destruct H as [[H1 H2] H3].
  split; [apply negb_true_iff; exact H1|]. split.
  - intros f Hf. rewrite forallb_forall in H2. specialize (H2 f Hf). destruct (ya_attribute (f_attrs f));
      [apply attribute_field_fineb_ok; exact H2|]. destruct (ya_flatten (f_attrs f));
      [apply flat_fineb_ok|apply elem_fineb_ok]; exact H2.
  - intros i j f g Hi Hj Hc. apply clashing_is in Hc. eapply clashless_ok; [exact H3|exact Hi|exact Hj|apply Hc|apply Hc].
Qed.
Definition enum_okb (E : env) (ra : yattr) (vs : list variant) : bool :=
  negb (ya_flatten ra) &&
  match ya_tag ra with Some tg => identifierb tg && negb (String.eqb tg "xmlns") | None => true end &&
  forallb (fun v => match v_body v with
                    | VbNew _ t => identifierb (variant_name v) && prefix_fineb E ra (ya_prefix (v_attrs v)) &&
                                   takes_baseb E (base_of t) (vlabel ra v)
                    | _ => true
                    end) vs.
Lemma enum_okb_ok : forall E ra vs, enum_okb E ra vs = true -> enum_ok E ra vs.
Proof.
  intros E ra vs H. unfold enum_okb in H. rewrite !andb_true_iff in H. destruct H as [[H1 H2] H3].
  split; [apply negb_true_iff; exact H1|]. split.
  - intros tg Ht. rewrite Ht in H2. apply andb_true_iff in H2. split; [apply identifierb_ok|apply neqb_ok]; apply H2.
  - intros v fl t Hv Hb. rewrite forallb_forall in H3. specialize (H3 v Hv). rewrite Hb, !andb_true_iff in H3.
    destruct H3 as [[H3 H4] H5]. split; [apply identifierb_ok; exact H3|]. split; [apply prefix_fineb_ok; exact H4|apply takes_baseb_ok; exact H5].
Qed.
Definition all_okb (E : env) : bool :=
  consistentb E &&
  forallb (fun td => match t_body td with
                     | DStruct fs => struct_okb E (t_attrs td) fs
                     | DEnum vs _ => enum_okb E (t_attrs td) vs
                     | DPrim _ => true
                     end) E.
Lemma all_okb_ok : forall E, all_okb E = true -> all_ok E.
Proof.
  intros E H. apply andb_true_iff in H. destruct H as [H1 H2]. split; [apply consistentb_ok; exact H1|].
  intros id td Htd. rewrite forallb_forall in H2. specialize (H2 td (nth_error_In _ _ Htd)).
  destruct (t_body td); [apply struct_okb_ok; exact H2|apply enum_okb_ok; exact H2|exact I].
Qed.
Definition root_okb (E : env) (id : nat) : bool :=
  on_type E id (fun td => identifierb (root_name td) && takesb E id (root_label td) &&
    match t_body td with
    | DPrim _ => no_default_namespaceb E
    | _ => prefix_fineb E (t_attrs td) (ya_prefix (t_attrs td))
    end).
Lemma root_okb_ok : forall E id, root_okb E id = true -> root_ok E id.
Proof.
  intros E id H td Htd. assert (H0 := on_type_ok _ _ _ _ H Htd). cbn beta in H0. rewrite !andb_true_iff in H0.
  destruct H0 as [[H1 H2] H3]. split; [apply identifierb_ok; exact H1|]. split; [apply takesb_ok; exact H2|].
  destruct (t_body td); [apply prefix_fineb_ok|apply prefix_fineb_ok|apply no_default_namespaceb_ok]; exact H3.
Qed.

(** ** What the types sharing an element leave to each other *)
Definition no_variant (vs : list variant) (s : string) : bool :=
  match variant_for vs s with None => true | Some _ => false end.
Lemma no_variant_ok : forall vs s, no_variant vs s = true -> variant_for vs s = None.
Proof. intros vs s H. unfold no_variant in H. destruct (variant_for vs s); [discriminate|reflexivity]. Qed.
Fixpoint walienb (vs : list variant) (k : wnode) : bool :=
  match k with
  | WTxt s | WCd s => String.eqb s "" || no_variant vs s
  | WElem n _ _ ks => no_variant vs (n_local n) && forallb (walienb vs) ks
  end.
Lemma walienb_ok : forall vs k, walienb vs k = true -> walien vs k.
Proof.
  intros vs. fix IH 1. intros [n a m ks|s|s] H; cbn [walienb] in H.
  - apply andb_true_iff in H. destruct H as [H1 H2]. constructor; [apply no_variant_ok; exact H1|]. clear H1.
    revert ks H2. fix IHl 1. intros [|k ks] H c Hc; [destruct Hc|]. cbn [forallb] in H. apply andb_true_iff in H. destruct H as [H1 H2].
    destruct Hc as [<-|Hc]; [apply IH; exact H1|exact (IHl ks H2 c Hc)].
  - constructor. apply orb_true_iff in H. destruct H as [H|H]; [left; apply String.eqb_eq; exact H|right; apply no_variant_ok; exact H].
  - constructor. apply orb_true_iff in H. destruct H as [H|H]; [left; apply String.eqb_eq; exact H|right; apply no_variant_ok; exact H].
Qed.
Definition ignores_own (E : env) (td : typedef) (k : wnode) : bool :=
  match t_body td with
  | DStruct fs =>
      match k with
      | WElem n _ _ _ => forallb (fun f => imp (elem_fieldb f) (negb (label_eqb (flabel (t_attrs td) f) (resolve (bindings E) n)))) fs
      | WTxt s | WCd s => String.eqb s "" || forallb (fun f => negb (ya_text (f_attrs f))) fs
      end
  | DEnum vs _ => walienb vs k
  | DPrim _ => false
  end.
Definition sharesp (E : env) (id : nat) (p : typedef -> bool) : bool :=
  let q j := on_type E j p in q id && insidep E id q.
Lemma sharesp_ok : forall E id p, sharesp E id p = true ->
  forall id' td, shares E id id' -> nth_error E id' = Some td -> p td = true.
Proof.
  intros E id p H id' td Hs Htd. unfold sharesp in H. exact (on_type_ok _ _ _ _ (shares_ok _ _ _ H _ Hs) Htd).
Qed.
Definition Ignoresb (E : env) (id : nat) (k : wnode) : bool := sharesp E id (fun td => ignores_own E td k).
Lemma Ignoresb_ok : forall E id k, Ignoresb E id k = true -> Ignores E id k.
Proof.
  intros E id k H id' td Hs Htd. assert (H0 := sharesp_ok _ _ _ H _ _ Hs Htd). cbn beta in H0. clear H.
  unfold ignores_own in H0. destruct (t_body td) as [fs|vs d|k0]; [|apply walienb_ok; exact H0|discriminate].
  assert (Ht : forall s, String.eqb s "" || forallb (fun f => negb (ya_text (f_attrs f))) fs = true ->
                         s = "" \/ forall f, In f fs -> ya_text (f_attrs f) = false).
  { intros s H. apply orb_true_iff in H. destruct H as [H|H]; [left; apply String.eqb_eq; exact H|right].
    intros f Hf. rewrite forallb_forall in H. apply negb_true_iff, H. exact Hf. }
  destruct k as [n a m ks|s|s]; [|apply Ht; exact H0|apply Ht; exact H0].
  intros f Hf He. rewrite forallb_forall in H0. specialize (H0 f Hf). pose proof (imp_ok _ _ H0 ltac:(apply elem_fieldb_ok; exact He)) as H0'; clear H0; rename H0' into H0.
  apply label_neqb_ok, negb_true_iff. exact H0.
Qed.
Definition claims_own (l : string) (td : typedef) : bool :=
  match t_body td with
  | DStruct fs => existsb (fun f => ya_attribute (f_attrs f) && String.eqb (field_name f) l) fs
  | DEnum _ _ => match ya_tag (t_attrs td) with Some t => String.eqb t l | None => false end
  | DPrim _ => false
  end.
Definition unclaimed (E : env) (id : nat) (l : string) : bool := sharesp E id (fun td => negb (claims_own l td)).
Lemma unclaimed_ok : forall E id l, unclaimed E id l = true -> ~ claims_attr E id l.
Proof.
  intros E id l H (id' & td & Hs & Htd & Hc). assert (H0 := sharesp_ok _ _ _ H _ _ Hs Htd). cbn beta in H0.
  apply negb_true_iff in H0. unfold claims_own in H0. destruct (t_body td) as [fs|vs d|k]; [| |exact Hc].
  - destruct Hc as (f & Hf & Ha & Hn). apply not_true_iff_false in H0. apply H0. apply existsb_exists. exists f.
    split; [exact Hf|]. rewrite Ha, Hn, String.eqb_refl. reflexivity.
  - rewrite Hc, String.eqb_refl in H0. discriminate.
Qed.
Definition spreadb (E : env) (id : nat) (v : value) : bool :=
  on_type E id (fun td =>
    match t_body td with
    | DStruct _ => true
    | DEnum _ _ => match ya_tag (t_attrs td), v with None, VVar _ [_] => true | _, _ => false end
    | DPrim _ => false
    end).
Lemma spreadb_ok : forall E id v, spreadb E id v = true -> spread E id v.
Proof.
  intros E id v H td Htd. assert (H0 := on_type_ok _ _ _ _ H Htd). cbn beta in H0.
  destruct (t_body td) as [fs|vs d|k]; [exact I| |discriminate].
  destruct (ya_tag (t_attrs td)); [discriminate|]. split; [reflexivity|].
  destruct v as [| | | | | | | |i [|w [|]]]; try discriminate. eauto.
Qed.

Section Check.
  Variable x : ext.
  Variable E : env.

  Section Mixed.
    Variable b : bool.
    Variable ra : yattr.
    Variable self : value.
    Definition pairb (f g : field) (v w : value) (id : nat) : bool :=
      imp (elem_fieldb g) (forallb (fun k => match k with
                                             | WElem n _ _ _ => negb (label_eqb (resolve (bindings E) n) (flabel ra g))
                                             | _ => true
                                             end) (written_nodes x E ra self f v)) &&
      imp (ya_text (f_attrs g)) (Nat.eqb (ntexts (written_nodes x E ra self f v)) 0) &&
      imp (ya_attribute (f_attrs g)) (forallb (fun a => negb (String.eqb (n_local (at_name a)) (field_name g)))
                                              (written_attrs x E b ra self f v)) &&
      imp (flat_field g || ya_text (f_attrs g)) (forallb (Ignoresb E id) (written_nodes x E ra self g w)) &&
      forallb (fun a => unclaimed E id (n_local (at_name a))) (written_attrs x E b ra self g w).
    Definition spread_itemsb (f : field) (v : value) : bool :=
      imp (elem_fieldb f && negb (suppressedb x self f v))
        match base_of (f_ty f), items_of (f_ty f) v with
        | BUser id, Some l => forallb (spreadb E id) l
        | _, _ => true
        end.
    Definition at_field (fs : list field) (vs : list value) (i : nat) (p : field -> value -> bool) : bool :=
      match nth_error fs i, nth_error vs i with Some f, Some v => p f v | _, _ => true end.
    Definition everywhere (fs : list field) (p : nat -> bool) : bool := forallb p (seq 0 (List.length fs)).
    Definition Unmixedb (fs : list field) (vs : list value) : bool :=
      Nat.leb (ntexts (flat_map (fun p => written_nodes x E ra self (fst p) (snd p)) (combine fs vs))) 1 &&
      everywhere fs (fun i => at_field fs vs i spread_itemsb) &&
      everywhere fs (fun i => at_field fs vs i (fun f v =>
        match flat_field f, base_of (f_ty f) with
        | true, BUser id =>
            everywhere fs (fun j => Nat.eqb i j || at_field fs vs j (fun g w => pairb f g v w id))
        | _, _ => true
        end)).
    Lemma everywhere_ok : forall fs p i f, everywhere fs p = true -> nth_error fs i = Some f -> p i = true.
    Proof.
      intros fs p i f H Hi. unfold everywhere in H. rewrite forallb_forall in H. apply H. apply in_seq.
      split; [lia|]. cbn. apply nth_error_Some. congruence.
    Qed.
    Lemma at_field_ok : forall fs vs i p f v, at_field fs vs i p = true ->
      nth_error fs i = Some f -> nth_error vs i = Some v -> p f v = true.
    Proof. intros fs vs i p f v H Hf Hv. unfold at_field in H. rewrite Hf, Hv in H. exact H. Qed.
    Lemma Unmixedb_ok : forall fs vs, Unmixedb fs vs = true -> Unmixed x E b ra self fs vs.
    Proof.
      intros fs vs H. unfold Unmixedb in H. rewrite !andb_true_iff in H. destruct H as [[H1 H2] H3]. constructor.
      - apply Nat.leb_le. exact H1.
      - intros i f v id l w Hf Hv He Hb Hl Hw Hs.
        assert (H := at_field_ok _ _ _ _ _ _ (everywhere_ok _ _ _ _ H2 Hf) Hf Hv). unfold spread_itemsb in H.
        assert (Hg : elem_fieldb f && negb (suppressedb x self f v) = true).
        { rewrite (elem_fieldb_ok f He). cbn [andb]. apply negb_true_iff. destruct (suppressedb x self f v) eqn:Hp; [|reflexivity].
          exfalso. apply Hs, suppressedb_ok. exact Hp. }
        pose proof (imp_ok _ _ H Hg) as H0. rewrite Hb, Hl, forallb_forall in H0. apply spreadb_ok, H0. exact Hw.
      - intros i j f g v w id Hij Hf Hv Hg Hw Hff Hb.
        assert (H := at_field_ok _ _ _ _ _ _ (everywhere_ok _ _ _ _ H3 Hf) Hf Hv). cbn beta in H. rewrite Hff, Hb in H.
        assert (H0 := everywhere_ok _ _ _ _ H Hg). cbn beta in H0. apply orb_true_iff in H0.
        destruct H0 as [H0|H0]; [apply Nat.eqb_eq in H0; contradiction|].
        assert (Hp := at_field_ok _ _ _ _ _ _ H0 Hg Hw). cbn beta in Hp. clear H H0 H1 H2 H3.
        unfold pairb in Hp. rewrite !andb_true_iff in Hp. destruct Hp as [[[[H1 H2] H3] H4] H5]. split; [|split; [|split; [|split]]].
        + intros He n a m ks Hin. pose proof (imp_ok _ _ H1 ltac:(apply elem_fieldb_ok; exact He)) as H1'; clear H1; rename H1' into H1.
          rewrite forallb_forall in H1. specialize (H1 _ Hin). cbn beta iota in H1. apply label_neqb_ok, negb_true_iff. exact H1.
        + intros Ht. pose proof (imp_ok _ _ H2 ltac:(exact Ht)) as H2'; clear H2; rename H2' into H2. apply Nat.eqb_eq. exact H2.
        + intros Ha a Hin. pose proof (imp_ok _ _ H3 ltac:(exact Ha)) as H3'; clear H3; rename H3' into H3. rewrite forallb_forall in H3. apply neqb_ok, H3. exact Hin.
        + intros Hor k Hk. pose proof (imp_ok _ _ H4 ltac:(destruct Hor as [-> | ->]; [reflexivity|apply orb_true_r])) as H4'; clear H4; rename H4' into H4.
          rewrite forallb_forall in H4. apply Ignoresb_ok, H4. exact Hk.
        + intros a Ha. rewrite forallb_forall in H5. apply unclaimed_ok, H5. exact Ha.
    Qed.
  End Mixed.

  Section Deep.
    Variable last : bool -> nat -> value -> bool.
    Definition itemlb (b : base) (v : value) : bool :=
      match b with BSimple s => leafb x cleanb s v | BUser id => last false id v end.
    Definition insidelb (b : base) (v : value) : bool :=
      match b with
      | BSimple s => leafb x (fun t => cleanb t || String.eqb t "") s v
      | BUser id => last true id v
      end.
    Definition payloadlb (d : value) (i : nat) (t : fty) (v : value) : bool :=
      match t, v with
      | TBase b, _ => insidelb b v
      | TOpt b, VOpt (Some w) => insidelb b w
      | TOpt b, VOpt None => same d (VVar i [VOpt None])
      | TVec b, VVec [] => same d (VVar i [VVec []])
      | TVec b, VVec l => forallb (insidelb b) l
      | _, _ => false
      end.
    (** A required field. *)
    Definition required (f : field) : bool :=
      match f_ty f, ya_default (f_attrs f) with TBase _, None => true | _, _ => false end.
    Definition absentb (id : nat) : bool :=
      match nth_error E id with
      | Some td => match t_body td with DStruct fs => negb (flattens fs) && existsb required fs | _ => false end
      | None => false
      end.
    Definition flatlb (b : bool) (self : value) (f : field) (v : value) : bool :=
      match f_ty f, v with
      | TBase (BUser id), _ => negb (suppressedb x self f v) && spreadb E id v && last b id v
      | TOpt (BUser id), VOpt (Some w) => negb (suppressedb x self f v) && spreadb E id w && last true id w
      | TOpt (BUser id), VOpt None => absentb id
      | _, _ => false
      end.
    Definition plainlb (b : bool) (self : value) (f : field) (v : value) : bool :=
      if ya_attribute (f_attrs f) then
        (b || unneededb x self f v) && missingb x f v ||
        negb b && negb (unneededb x self f v) &&
        match f_ty f, v with
        | TBase t, _ => attrb x E t v
        | TOpt t, VOpt (Some w) => attrb x E t w
        | _, _ => false
        end
      else if ya_text (f_attrs f) then
        match f_ty f, v with
        | TBase (BSimple SString), VStr t => cleanb t
        | TOpt (BSimple SString), VOpt (Some (VStr t)) => cleanb t
        | _, _ => false
        end
      else if suppressedb x self f v then missingb x f v
      else if ya_cdata (f_attrs f) then
        match v with VStr t => is_string (f_ty f) && cleanb t && negb (contains "]]>" t) | _ => false end
      else match items_of (f_ty f) v with
           | Some items => forallb (itemlb (base_of (f_ty f))) items
           | None => false
           end.
    Definition fieldlb (b : bool) (self : value) (f : field) (v : value) : bool :=
      if flat_field f then flatlb b self f v
      else match f_ty f, v with
           | TOpt _, VOpt None => true
           | TVec _, VVec [] => true
           | _, _ => plainlb b self f v
           end.
    Fixpoint fieldslb (b : bool) (self : value) (fs : list field) (vs : list value) : bool :=
      match fs, vs with
      | [], [] => true
      | f :: fs', v :: vs' => fieldlb b self f v && fieldslb b self fs' vs'
      | _, _ => false
      end.

    Hypothesis last_ok : forall b id v, last b id v = true -> Lasts x E b id v.
    Lemma itemlb_ok : forall b v, itemlb b v = true -> ItemLasts x E b v.
    Proof.
      intros [s|id] v H; constructor; [|apply last_ok; exact H].
      apply (leafb_ok _ _ cleanb cleanb_ok). exact H.
    Qed.
    Lemma insidelb_ok : forall b v, insidelb b v = true -> InsideLasts x E b v.
    Proof.
      intros [s|id] v H; constructor; [|apply last_ok; exact H].
      apply (leafb_ok _ _ (fun t => cleanb t || String.eqb t "")); [|exact H].
      intros t Ht. apply orb_true_iff in Ht. destruct Ht as [Ht|Ht]; [left; apply cleanb_ok; exact Ht|right; apply String.eqb_eq; exact Ht].
    Qed.
    Lemma payloadlb_ok : forall d i t v, payloadlb d i t v = true -> PayloadLasts x E d i t v.
    Proof.
      intros d i t v H. destruct t as [b|b|b|b]; cbn [payloadlb] in H.
      - apply pl_base, insidelb_ok. exact H.
      - destruct v as [| | | | |[w|]| | |]; try discriminate; [apply pl_some, insidelb_ok; exact H|apply pl_none, same_ok; exact H].
      - destruct v as [| | | | | |[|w l]| |]; try discriminate; [apply pl_vec_empty, same_ok; exact H|].
        apply pl_vec; [discriminate|]. intros u Hu. rewrite forallb_forall in H. apply insidelb_ok, H. exact Hu.
      - discriminate.
    Qed.
    Lemma flatlb_ok : forall b self f v, flat_field f = true -> flatlb b self f v = true -> FieldLasts x E b self f v.
    Proof.
      intros b self f v Hf H. unfold flatlb in H. destruct (f_ty f) as [[|id]|[|id]|t|t] eqn:Ht; try discriminate.
      - rewrite !andb_true_iff, negb_true_iff in H. destruct H as [[H1 H2] H3]. apply suppressedb_no in H1.
        apply (fd_flat x E b self f id v); auto. apply spreadb_ok; exact H2.
      - destruct v as [| | | | |[w|]| | |]; try discriminate.
        + rewrite !andb_true_iff, negb_true_iff in H. destruct H as [[H1 H2] H3]. apply suppressedb_no in H1.
          apply (fd_flat_some x E b self f id w); auto. apply spreadb_ok; exact H2.
        + unfold absentb in H. destruct (nth_error E id) as [td|] eqn:Htd; [|discriminate].
          destruct (t_body td) as [fs| |] eqn:Hb; [|discriminate|discriminate].
          apply andb_true_iff in H. destruct H as [H1 H2]. apply existsb_exists in H2. destruct H2 as (g & Hg & H2).
          unfold required in H2. destruct (f_ty g) as [t| | |] eqn:Hgt; try discriminate.
          destruct (ya_default (f_attrs g)) eqn:Hd; [discriminate|].
          apply (fd_flat_none x E b self f id td fs g t); auto. { split; assumption. } apply negb_true_iff; exact H1.
    Qed.
    Lemma plainlb_ok : forall b self f v, flat_field f = false -> plainlb b self f v = true -> FieldLasts x E b self f v.
    Proof.
      intros b self f v Hf H. unfold plainlb in H. unfold flat_field in Hf. destruct (ya_attribute (f_attrs f)) eqn:Ha.
      - apply orb_true_iff in H. destruct H as [H|H].
        + apply andb_true_iff in H. destruct H as [H1 H2]. apply missingb_ok in H2.
          destruct b; [apply fd_lost_attribute; assumption|].
          apply fd_unneeded_attribute; [exact Ha|apply unneededb_ok; exact H1|exact H2].
        + rewrite !andb_true_iff, !negb_true_iff in H. destruct H as [[-> H1] H2].
          apply unneededb_no in H1. destruct (f_ty f) as [t|t|t|t] eqn:Ht; try discriminate.
          * apply (fd_attribute x E self f v t v); auto. apply attrb_ok. exact H2.
          * destruct v as [| | | | |[w|]| | |]; try discriminate.
            apply (fd_attribute x E self f _ t w); auto. apply attrb_ok. exact H2.
      - cbn [negb andb] in Hf. destruct (ya_text (f_attrs f)) eqn:Htx.
        + destruct (f_ty f) as [[[| | |]|]|[[| | |]|]|b0|b0] eqn:Ht; try discriminate.
          * destruct v; try discriminate. apply (fd_text x E b self f _ s); auto. apply cleanb_ok. exact H.
          * destruct v as [| | | | |[[s| | | | | | | |]|]| | |]; try discriminate.
            apply (fd_text x E b self f _ s); auto. apply cleanb_ok. exact H.
        + destruct (suppressedb x self f v) eqn:Hs.
          * apply fd_suppressed; [exact Ha|exact Htx|exact Hf|apply suppressedb_ok; exact Hs|apply missingb_ok; exact H].
          * apply suppressedb_no in Hs. destruct (ya_cdata (f_attrs f)) eqn:Hc.
            -- destruct v; try discriminate. rewrite !andb_true_iff, negb_true_iff in H. destruct H as [[H1 H2] H3].
               apply fd_cdata; auto; [|apply cleanb_ok; exact H2].
               unfold is_string in H1. destruct (f_ty f) as [[[| | |]|]| | |]; try discriminate. reflexivity.
            -- destruct (items_of (f_ty f) v) as [items|] eqn:Hi; [|discriminate].
               apply (fd_items x E b self f v items); auto. intros w Hw. rewrite forallb_forall in H. apply itemlb_ok, H. exact Hw.
    Qed.
    Lemma fieldlb_ok : forall b self f v, fieldlb b self f v = true -> FieldLasts x E b self f v.
    Proof.
      intros b self f v H. unfold fieldlb in H. destruct (flat_field f) eqn:Hf; [apply flatlb_ok; assumption|].
      destruct (f_ty f) as [t|t|t|t] eqn:Ht; try (apply plainlb_ok; assumption).
      - destruct v as [| | | | |[w|]| | |]; try (apply plainlb_ok; assumption). apply (fd_none x E b self f t Hf Ht).
      - destruct v as [| | | | | |[|w l]| |]; try (apply plainlb_ok; assumption). apply (fd_no_items x E b self f t Ht).
    Qed.
    Lemma fieldslb_ok : forall b self fs vs, fieldslb b self fs vs = true -> FieldsLast x E b self fs vs.
    Proof.
      intros b self. induction fs as [|f fs IH]; intros [|v vs] H; try discriminate; constructor; cbn [fieldslb] in H;
        apply andb_true_iff in H; [apply fieldlb_ok|apply IH]; apply H.
    Qed.
  End Deep.

  Fixpoint lastsb (n : nat) (b : bool) (id : nat) (v : value) : bool :=
    match n with
    | O => false
    | S n' =>
        match nth_error E id with
        | None => false
        | Some td =>
            match t_body td with
            | DStruct fs =>
                match v with
                | VRec vs => no_ns b (t_attrs td) && imp (flattens fs) (Unmixedb b (t_attrs td) v fs vs) &&
                             fieldslb (lastsb n') b v fs vs
                | _ => false
                end
            | DEnum vs d =>
                match v with
                | VVar i ws =>
                    match nth_error vs i with
                    | None => false
                    | Some vr =>
                        first_variantb vs i vr &&
                        match v_body vr, ws, ya_tag (t_attrs td) with
                        | VbUnit, [], None => bare_variantb (t_attrs td) vr && cleanb (variant_name vr)
                        | VbUnit, [], Some _ => negb b && legal_attr (variant_name vr)
                        | VbNew fl t, [w], None =>
                            negb fl && negb (ya_flatten (v_attrs vr)) && no_ns b (t_attrs td) && payloadlb (lastsb n') d i t w
                        | _, _, _ => false
                        end
                    end
                | _ => false
                end
            | DPrim k => primb x cleanb (t_name td) k v
            end
        end
    end.
  Lemma lastsb_ok : forall n b id v, lastsb n b id v = true -> Lasts x E b id v.
  Proof.
    induction n as [|n IH]; intros b id v H; [discriminate|]. cbn [lastsb] in H.
    destruct (nth_error E id) as [td|] eqn:Htd; [|discriminate]. destruct (t_body td) as [fs|vs d|k] eqn:Hb.
    - destruct v as [| | | | | | |ws|]; try discriminate. rewrite !andb_true_iff in H. destruct H as [[H1 H3] H2].
      eapply ls_struct; [split; [exact Htd|exact Hb]|apply no_ns_ok; exact H1| |].
      + intros Hf. pose proof (imp_ok _ _ H3 ltac:(exact Hf)) as H3'; clear H3; rename H3' into H3. apply Unmixedb_ok. exact H3.
      + apply (fieldslb_ok (lastsb n) IH). exact H2.
    - destruct v as [| | | | | | | |i ws]; try discriminate. destruct (nth_error vs i) as [vr|] eqn:Hv; [|discriminate].
      apply andb_true_iff in H. destruct H as [H1 H2]. apply (first_variantb_ok _ _ _ Hv) in H1.
      destruct (v_body vr) as [|fl t|] eqn:Hvb; [| |discriminate].
      + destruct ws; [|discriminate]. destruct (ya_tag (t_attrs td)) as [tg|] eqn:Ht; apply andb_true_iff in H2; destruct H2 as [H2 H3].
        * apply negb_true_iff in H2. subst b. eapply ls_tagged; eauto.
        * eapply ls_unit; eauto; [apply bare_variantb_ok; exact H2|apply cleanb_ok; exact H3].
      + destruct ws as [|w [|]]; try discriminate. destruct (ya_tag (t_attrs td)) as [tg|] eqn:Ht; [discriminate|].
        rewrite !andb_true_iff, !negb_true_iff in H2. destruct H2 as [[[H2 H3] H4] H5]. subst fl.
        eapply ls_payload; eauto; [apply no_ns_ok; exact H4|apply (payloadlb_ok (lastsb n) IH); exact H5].
    - eapply ls_prim; eauto. apply (primb_ok _ _ cleanb cleanb_ok). exact H.
  Qed.
End Check.
