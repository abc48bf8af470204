(** * Reading a struct element field by field (used by the round trips). *)
From Verif Require Import Str Num Xml XmlText Reader Schema De SpecTree SpecText SpecNum SpecTyped SpecStruct SpecSer SpecValue
  SpecEnc SpecRound TreeFacts TreeProofs TextProofs ValueProofs StructProofs RoundNames RoundTexts.
Open Scope list_scope.

(** ** Content of elements *)
Lemma reread_kids_elems : forall st l r, (forall k, In k l -> is_elem k) ->
  reread_kids st (l ++ r) "" = map (reread st) l ++ reread_kids st r "".
Proof.
  intros st l r. induction l as [|k l IH]; intros H; [reflexivity|].
  assert (Hk : is_elem k) by (apply H; left; reflexivity). destruct k as [n a m ks|s|s]; [|destruct Hk..].
  cbn [app reread_kids]. rewrite IH by (intros; apply H; right; assumption). reflexivity.
Qed.
Lemma reread_kids_buf : forall st l t, (forall k, In k l -> is_elem k) ->
  reread_kids st l t = text_node t ++ map (reread st) l.
Proof.
  intros st [|k l] t H; [cbn; rewrite app_nil_r; reflexivity|].
  assert (Hk : is_elem k) by (apply H; left; reflexivity). destruct k as [n a m ks|s|s]; [|destruct Hk..].
  cbn [reread_kids map]. pose proof (reread_kids_elems st l [] (fun j Hj => H j (or_intror Hj))) as Hr.
  rewrite app_nil_r in Hr. rewrite Hr. cbn [reread_kids]. rewrite empty_node, app_nil_r. reflexivity.
Qed.
Lemma reread_kids_all : forall st l, (forall k, In k l -> is_elem k) -> reread_kids st l "" = map (reread st) l.
Proof. intros st l H. rewrite reread_kids_buf by exact H. reflexivity. Qed.

(** ** Contributions per field *)
Fixpoint contrib (g : field -> bool) (i : nat) (fs : list field) (its : list (list value)) : list (nat * value) :=
  match fs, its with
  | f :: fr, it :: ir => (if g f then map (pair i) it else []) ++ contrib g (S i) fr ir
  | _, _ => []
  end.

Lemma contrib_ge : forall g fs its i p, In p (contrib g i fs its) -> i <= fst p.
Proof.
  induction fs as [|f fs IH]; intros [|it its] i p H; try destruct H. cbn [contrib] in H.
  apply in_app_or in H. destruct H as [H|H].
  - destruct (g f); [|destruct H]. apply in_map_iff in H. destruct H as (v & <- & _). cbn; lia.
  - apply IH in H. lia.
Qed.
Lemma given_pairs : forall i j it, given i (map (pair j) it) = if Nat.eqb j i then it else [].
Proof.
  intros i j it. unfold given. induction it as [|v it IH]; cbn [map filter fst].
  - destruct (Nat.eqb j i); reflexivity.
  - destruct (Nat.eqb j i); cbn [map snd]; rewrite IH; reflexivity.
Qed.
Lemma given_contrib : forall g fs its i j f it, nth_error fs j = Some f -> nth_error its j = Some it ->
  given (i + j) (contrib g i fs its) = if g f then it else [].
Proof.
  induction fs as [|f0 fs IH]; intros [|it0 its] i [|j] f it Hf Hi; try discriminate; cbn [nth_error] in *.
  - injection Hf as ->. injection Hi as ->. cbn [contrib]. rewrite given_app.
    rewrite (given_nil_iff _ (contrib g (S i) fs its)).
    2:{ intros p Hp. apply contrib_ge in Hp. lia. }
    rewrite app_nil_r, Nat.add_0_r. destruct (g f); [|reflexivity]. rewrite given_pairs, Nat.eqb_refl. reflexivity.
  - cbn [contrib]. rewrite given_app. rewrite <- Nat.add_succ_comm. rewrite (IH its (S i) j f it Hf Hi).
    replace (given (S i + j) (if g f0 then map (pair i) it0 else [])) with (@nil value); [reflexivity|].
    destruct (g f0); [|reflexivity]. rewrite given_pairs. destruct (Nat.eqb_spec i (S i + j)); [lia|reflexivity].
Qed.

Lemma fields_result_all : forall x tn c fs vs its i,
  List.length its = List.length fs ->
  (forall j f it v, nth_error fs j = Some f -> nth_error its j = Some it -> nth_error vs j = Some v ->
     given (i + j) c = it /\ field_result x tn f it = Ok v) ->
  List.length vs = List.length fs ->
  fields_result x tn i fs c = Ok vs.
Proof.
  intros x tn c. induction fs as [|f fs IH]; intros [|v vs] [|it its] i Hl H Hv; try discriminate; [reflexivity|].
  cbn [fields_result]. destruct (H 0 f it v eq_refl eq_refl eq_refl) as [H1 H2].
  rewrite Nat.add_0_r in H1. rewrite H1, H2. rewrite (IH vs its (S i)).
  - reflexivity.
  - cbn in Hl; lia.
  - intros j f' it' v' A B C. rewrite Nat.add_succ_comm. apply (H (S j) f' it' v'); assumption.
  - cbn in Hv; lia.
Qed.

(** Contributions of attributes. *)
Section Attrs.
  Variable x : ext.
  Variable av : nat -> string -> outcome value.

  Lemma attr_given_other : forall i f a, n_local (at_name a) <> field_name f -> attr_given x av i f a = OOk [].
  Proof.
    intros i f a H. unfold attr_given. destruct (String.eqb_spec (n_local (at_name a)) (snd (flabel ya0 f))) as [He|]; [|reflexivity].
    exfalso. apply H. exact He.
  Qed.
  Lemma attrs_given_other : forall i f l, (forall a, In a l -> n_local (at_name a) <> field_name f) ->
    ocollect (attr_given x av i f) l = OOk [].
  Proof.
    intros i f. induction l as [|a l IH]; intros H; [reflexivity|]. rewrite ocollect_cons.
    rewrite attr_given_other by (apply H; left; reflexivity). rewrite IH by (intros; apply H; right; assumption). reflexivity.
  Qed.

  Lemma attrs_contrib : forall fs its i attrs, List.length its = List.length fs ->
    (forall j f it, nth_error fs j = Some f -> nth_error its j = Some it -> ya_attribute (f_attrs f) = true ->
       ocollect (attr_given x av (i + j) f) attrs = OOk (map (pair (i + j)) it)) ->
    ocollect (fun p => if ya_attribute (f_attrs (snd p)) then ocollect (attr_given x av (fst p) (snd p)) attrs else OOk [])
             (combine (seq i (List.length fs)) fs)
    = OOk (contrib (fun f => ya_attribute (f_attrs f)) i fs its).
  Proof.
    induction fs as [|f fs IH]; intros [|it its] i attrs Hl H; try discriminate; [reflexivity|].
    rewrite combine_seq_cons, ocollect_cons. cbn [fst snd contrib].
    rewrite (IH its (S i)).
    - destruct (ya_attribute (f_attrs f)) eqn:Ha; [|reflexivity].
      pose proof (H 0 f it eq_refl eq_refl Ha) as H0. rewrite Nat.add_0_r in H0. rewrite H0. reflexivity.
    - cbn in Hl; lia.
    - intros j f' it' A B C. rewrite Nat.add_succ_comm. apply (H (S j) f' it'); assumption.
  Qed.
End Attrs.
