(** * C66: new fields that are left empty. *)
From Verif Require Import Str Num Xml XmlText Reader Schema Ser SpecTree SpecText SpecStruct SpecMove SpecEnc SerProofs EncProofs SpecQuiet EqualProofs.
Open Scope list_scope.

(** ** Equality of values *)
Fixpoint eqls (x : ext) (l m : list value) : bool :=
  match l, m with
  | [], [] => true
  | u :: l', w :: m' => (value_eqb x u w && eqls x l' m')%bool
  | _, _ => false
  end.
Lemma value_eqb_eq : forall x a b, value_eqb x a b =
  match a, b with
  | VStr s, VStr t => String.eqb s t
  | VBool s, VBool t => Bool.eqb s t
  | VInt s, VInt t => Z.eqb s t
  | VFloat s, VFloat t => x_feq x s t
  | VUser s, VUser t => Z.eqb s t
  | VOpt None, VOpt None => true
  | VOpt (Some u), VOpt (Some w) => value_eqb x u w
  | VVec l, VVec m => eqls x l m
  | VRec l, VRec m => eqls x l m
  | VVar i l, VVar j m => (Nat.eqb i j && eqls x l m)%bool
  | _, _ => false
  end.
Proof.
  intros x a b.
  assert (He : forall l m, (fix eql (l m : list value) {struct l} : bool :=
      match l, m with
      | [], [] => true
      | u :: l', w :: m' => (value_eqb x u w && eql l' m')%bool
      | _, _ => false
      end) l m = eqls x l m).
  { induction l as [|u l IH]; intros [|w m]; try reflexivity. cbn [eqls]. rewrite <- IH. reflexivity. }
  destruct a as [| | | | |[]| | |], b as [| | | | |[]| | |]; try reflexivity; cbn [value_eqb]; rewrite He; reflexivity.
Qed.

(** ** More can be written if more can be written of the parts *)
Section Mono.
  Variables (x : ext) (E : env).
  Variables enc enc' : nat -> value -> how -> option (list wnode).
  Variables ea ea' : nat -> value -> option (list attr * nsmap).
  Hypothesis He : forall id v h, enc id v h <> None -> enc' id v h <> None.
  Hypothesis Ha : forall id v, ea id v <> None -> ea' id v <> None.

  Lemma oapp_parts : forall A (a b : option (list A)), oapp a b <> None -> a <> None /\ b <> None.
  Proof. intros A [u|] [w|] H; split; try congruence; try (exfalso; apply H; reflexivity); discriminate. Qed.
  Lemma oconcat_parts : forall A B (f g : A -> option (list B)) l, (forall a, f a <> None -> g a <> None) -> oconcat f l <> None -> oconcat g l <> None.
  Proof.
    intros A B f g l H. induction l as [|a l IH]; intros Hf; [discriminate|]. cbn [oconcat] in *. apply oapp_parts in Hf. destruct Hf.
    apply oapp_none; auto.
  Qed.
  Lemma mono_show : forall b v, attr_show x enc b v <> None -> attr_show x enc' b v <> None.
  Proof. intros [s|i] v H; cbn [attr_show] in *; [exact H|]. rewrite omap_none in *. auto. Qed.
  Lemma mono_attr : forall ra self f v, enc_attr x enc ra self f v <> None -> enc_attr x enc' ra self f v <> None.
  Proof.
    intros ra self f v H. unfold enc_attr in *. destruct (f_ty f) as [b|b|b|b]; try exact H.
    - rewrite omap_none in *. apply mono_show. exact H.
    - destruct v as [| | | | |[w|]| | |]; try exact H. rewrite omap_none in *. apply mono_show. exact H.
  Qed.
  Lemma mono_tag : forall ra self fs vs, enc_tag x enc ea ra self fs vs <> None -> enc_tag x enc' ea' ra self fs vs <> None.
  Proof.
    intros ra self fs. induction fs as [|f fs IH]; intros [|v vs] H; try exact H. cbn [enc_tag] in *. specialize (IH vs).
    destruct (enc_tag x enc ea ra self fs vs) as [[[o c] m]|]; [|congruence].
    destruct (enc_tag x enc' ea' ra self fs vs) as [[[o' c'] m']|]; [|exfalso; apply IH; [discriminate|reflexivity]].
    destruct (ya_attribute (f_attrs f)); [rewrite omap_none in *; apply mono_attr; exact H|].
    destruct (ya_flatten (f_attrs f)); [|discriminate]. destruct (f_ty f) as [[s|i]|b|b|b]; try discriminate. rewrite omap_none in *. auto.
  Qed.
  Lemma mono_field : forall ra self f v, enc_field x enc ra self f v <> None -> enc_field x enc' ra self f v <> None.
  Proof.
    intros ra self f v H. unfold enc_field in *.
    destruct (ya_attribute (f_attrs f)); [exact H|]. destruct (ya_text (f_attrs f)); [exact H|].
    destruct (left_out x self v f true); [exact H|]. destruct (ya_cdata (f_attrs f)); [exact H|].
    destruct (f_ty f) as [[s|i]|[s|i]|[s|i]|[s|i]]; try exact H; auto.
    - destruct v as [| | | | |[w|]| | |]; try exact H. auto.
    - destruct v as [| | | | | |l| |]; try exact H. revert H. apply oconcat_parts. auto.
  Qed.
  Lemma mono_fields : forall ra self fs vs, enc_fields x enc ra self fs vs <> None -> enc_fields x enc' ra self fs vs <> None.
  Proof.
    intros ra self fs. induction fs as [|f fs IH]; intros [|v vs] H; try exact H. cbn [enc_fields] in *. apply oapp_parts in H. destruct H.
    apply oapp_none; [apply mono_field; assumption|auto].
  Qed.
  Lemma mono_item : forall b v h, enc_item x enc b v h <> None -> enc_item x enc' b v h <> None.
  Proof. intros [[]|i] v h H; cbn [enc_item] in *; auto. Qed.
  Lemma mono_named : forall ra fs vs, enc_named_fields x enc ra fs vs <> None -> enc_named_fields x enc' ra fs vs <> None.
  Proof.
    intros ra fs. induction fs as [|f fs IH]; intros [|v vs] H; try exact H. cbn [enc_named_fields] in *. apply oapp_parts in H. destruct H as [H1 H2].
    apply oapp_none; [|auto]. unfold enc_named_field in *. destruct (f_ty f) as [[s|i]|b|b|b]; try exact H1; auto.
    destruct v as [| | | | | |l| |]; try exact H1. revert H1. apply oconcat_parts. intros w. apply mono_item.
  Qed.
  Lemma mono_payload_item : forall q b v, enc_payload_item x enc q b v <> None -> enc_payload_item x enc' q b v <> None.
  Proof.
    intros q b v H. unfold enc_payload_item in *. rewrite omap_none in *.
    destruct b as [[]|i]; try (destruct v; exact H || (apply mono_item; exact H)); apply mono_item; exact H.
  Qed.
  Lemma mono_payload : forall h q fl t v, enc_payload x enc h q fl t v <> None -> enc_payload x enc' h q fl t v <> None.
  Proof.
    intros h q fl t v H. unfold enc_payload in *. destruct t as [[s|i]|b|b|b]; try exact H.
    - destruct fl; [auto|]. apply mono_payload_item. exact H.
    - destruct v as [| | | | |[w|]| | |]; try exact H. apply mono_payload_item. exact H.
    - destruct v as [| | | | | |l| |]; try exact H. revert H. apply oconcat_parts. intros w. apply mono_payload_item.
  Qed.
  Lemma mono_content : forall h td v, enc_content x enc h td v <> None -> enc_content x enc' h td v <> None.
  Proof.
    intros h td v H. unfold enc_content in *. destruct (t_body td) as [fs|vs df|k]; try exact H.
    - destruct v; try exact H. apply mono_fields. exact H.
    - destruct v as [| | | | | | | |i l]; try exact H. destruct (nth_error vs i) as [va|]; [|exact H]. unfold enc_variant in *.
      destruct (v_body va) as [|fl t|fs]; try exact H; [|apply mono_named; exact H].
      destruct l as [|w [|]]; try exact H. apply mono_payload. exact H.
  Qed.
  Lemma mono_start : forall td v, enc_start x enc ea td v <> None -> enc_start x enc' ea' td v <> None.
  Proof.
    intros td v H. unfold enc_start in *. destruct (t_body td); try exact H. destruct v; try exact H. apply mono_tag. exact H.
  Qed.
  Lemma mono_type : forall id v,
    (forall h, enc_type x E enc ea id v h <> None -> enc_type x E enc' ea' id v h <> None) /\
    (enc_type_attrs x E enc ea id v <> None -> enc_type_attrs x E enc' ea' id v <> None).
  Proof.
    intros id v. unfold enc_type, enc_type_attrs. destruct (nth_error E id) as [td|]; [|split; auto].
    pose proof (mono_start td v) as Hs. split.
    - intros h. pose proof (mono_content h td v) as Hc. destruct (t_body td); destruct h as [|o]; auto;
        (destruct (ya_flatten (t_attrs td)); [auto|]; intros H;
         destruct (enc_start x enc ea td v) as [[[o1 c1] m1]|]; [|congruence];
         destruct (enc_start x enc' ea' td v) as [[[o2 c2] m2]|]; [|exfalso; apply Hs; [discriminate|reflexivity]];
         match goal with |- match ?c with _ => _ end <> None => destruct c end; [discriminate|];
         exfalso; apply Hc; [|reflexivity]; intros Hn; rewrite Hn in H; apply H; reflexivity).
    - destruct (t_body td); auto; intros H; rewrite omap_none in *; auto.
  Qed.
End Mono.

(** The bound of [enc_all] taken from the other side: beyond it everything can
    be written. *)
Fixpoint enc_over (x : ext) (E : env) (n : nat)
  : (nat -> value -> how -> option (list wnode)) * (nat -> value -> option (list attr * nsmap)) :=
  match n with
  | O => (fun _ _ _ => Some [], fun _ _ => Some ([], []))
  | S k => let r := enc_over x E k in
           (enc_type x E (fst r) (snd r), enc_type_attrs x E (fst r) (snd r))
  end.
Lemma over_ext : forall x E n m v, height v < n -> height v < m ->
  (forall id h, fst (enc_over x E n) id v h = fst (enc_all x E m) id v h) /\
  (forall id, snd (enc_over x E n) id v = snd (enc_all x E m) id v).
Proof.
  intros x E. induction n as [|n IH]; intros [|m] v Hn Hm; try lia. cbn [enc_all enc_over fst snd]. split.
  - intros id h. apply (enc_type_ext x E _ _ _ _ (height v)); [| |lia]; intros; apply IH; lia.
  - intros id. apply (enc_type_attrs_ext x E _ _ _ _ (height v)); [| |lia]; intros; apply IH; lia.
Qed.
Lemma over_some : forall x E n m id v,
  (forall h, fst (enc_all x E m) id v h <> None -> fst (enc_over x E n) id v h <> None) /\
  (snd (enc_all x E m) id v <> None -> snd (enc_over x E n) id v <> None).
Proof.
  intros x E. induction n as [|n IH]; intros [|m] id v; cbn [enc_all enc_over fst snd]; try (split; congruence).
  apply mono_type; intros; apply (IH m); assumption.
Qed.

Section Quiet.
  Variables (x : ext) (dv : string -> value) (P : nat -> plan) (E E' : env).
  Notation x' := (with_defaults x dv).
  Hypothesis Hre : rearranged x' P E E'.
  Hypothesis Hord : in_order P E.
  Hypothesis Hquiet : quiet x' P E'.
  Hypothesis Hfun : functions_moved x x' P E E'.
  Notation mv := (moved x' P E E').
  Notation mvb := (moved_base x' P E E').
  Notation mvl := (moved_list x' P E E').
  Notation mvi := (moved_item x' P E E').
  Notation mvf := (moved_fields x' P E E').

  Lemma eqb_ext : forall n a b, height a <= n -> value_eqb x' a b = value_eqb x a b.
  Proof.
    induction n as [|n IH]; intros a b Hn; [destruct a as [| | | | |[]| | |]; cbn in Hn; lia|].
    assert (Hl : forall l m, (forall u, In u l -> height u <= n) -> eqls x' l m = eqls x l m).
    { induction l as [|u l IHl]; intros [|w m] H; try reflexivity. cbn [eqls]. rewrite (IH u w) by (apply H; left; reflexivity).
      rewrite IHl; [reflexivity|]. intros z Hz. apply H. right; exact Hz. }
    assert (Hin : forall l, S (list_max (map height l)) <= S n -> forall u, In u l -> height u <= n).
    { intros l H u Hu. pose proof (height_in u l Hu). lia. }
    rewrite !value_eqb_eq. destruct a as [| | | | |[u|]|l|l|i l], b as [| | | | |[w|]|m|m|j m]; try reflexivity; cbn [height] in Hn.
    - apply IH. lia.
    - apply Hl, Hin, Hn.
    - apply Hl, Hin, Hn.
    - rewrite (Hl l m (Hin l Hn)). reflexivity.
  Qed.

  (** *** Fields in their order *)
  Definition entry (fs : list field) (o : option nat) (f : field) : Prop :=
    match o with Some k => nth_error fs k = Some f | None => missing_value x' f <> None /\ flat_field f = false /\ leaves_no_trace x' E' f end.

  Lemma struct_pair : forall id td td' fs fs', struct_type E id td fs -> struct_type E' id td' fs' ->
    t_name td' = t_name td /\ t_attrs td' = t_attrs td /\ old_fields (P id) = seq 0 (List.length fs) /\ Forall2 (entry fs) (P id) fs'.
  Proof.
    intros id td td' fs fs' Hst Hst'. pose proof (Hre id) as Hr. destruct Hst as [Ht Hb]. destruct Hst' as [Ht' Hb']. rewrite Ht, Ht' in Hr.
    destruct Hr as (Hn & Ha & Hr). rewrite Hb, Hb' in Hr. destruct Hr as [_ Hf]. split; [exact Hn|]. split; [exact Ha|].
    split; [apply (Hord id td fs); split; assumption|].
    assert (Hq : forall j f, nth_error (P id) j = Some None -> nth_error fs' j = Some f -> leaves_no_trace x' E' f).
    { intros j f Hj Hfj. eapply (Hquiet id td'); [split; eassumption|exact Hj|exact Hfj]. }
    revert Hq. generalize (P id), fs', Hf. clear. intros p fs' Hf. induction Hf as [|o f p fs' Ho Hf IH]; intros Hq; constructor.
    - destruct o as [k|]; [exact Ho|]. destruct Ho as [H1 H2]. split; [exact H1|]. split; [exact H2|]. apply (Hq 0); reflexivity.
    - apply IH. intros j g Hj Hg. apply (Hq (S j)); assumption.
  Qed.

  Lemma seq_step : forall (fs : list field) s k p, k :: p = seq s (List.length fs - s) -> s < List.length fs /\ k = s /\ p = seq (S s) (List.length fs - S s).
  Proof.
    intros fs s k p H. destruct (List.length fs - s) as [|m] eqn:Hm; [discriminate|]. cbn [seq] in H. inversion H; subst.
    split; [lia|]. split; [reflexivity|]. f_equal. lia.
  Qed.
  Lemma seq_end : forall (fs : list field) s, [] = seq s (List.length fs - s) -> List.length fs <= s.
  Proof. intros fs s H. destruct (List.length fs - s) as [|m] eqn:Hm; [lia|discriminate]. Qed.
  Lemma skipn_step : forall A (l : list A) s a, nth_error l s = Some a -> skipn s l = a :: skipn (S s) l.
  Proof. intros A l. induction l as [|b l IH]; intros [|s] a H; try discriminate; [inversion H; reflexivity|]. cbn [skipn]. apply (IH s a H). Qed.
  Lemma skipn_end : forall A (l : list A) s, List.length l <= s -> skipn s l = [].
  Proof. intros A l s H. apply skipn_all2. exact H. Qed.

  (** *** Equal before, equal after *)
  Lemma new_refl : forall f w, missing_value x' f = Some w -> leaves_no_trace x' E' f -> value_eqb x' w w = true.
  Proof.
    intros f w Hw [_ Hd]. unfold missing_value in Hw. destruct (f_ty f); try (inversion Hw; subst; reflexivity).
    destruct (ya_default (f_attrs f)) as [d|]; [|discriminate]. inversion Hw; subst. apply equal_values, Hd. reflexivity.
  Qed.

  Lemma eqb_fields : forall fs n, (forall t v w d d', height v <= n -> mvi t v w -> mvi t d d' -> value_eqb x' w d' = value_eqb x v d) ->
    forall p fs' l l', mvf p fs' l l' -> Forall2 (entry fs) p fs' -> forall m m' s, mvf p fs' m m' ->
    old_fields p = seq s (List.length fs - s) -> List.length l = List.length fs -> List.length m = List.length fs ->
    (forall u, In u l -> height u <= n) -> eqls x' l' m' = eqls x (skipn s l) (skipn s m).
  Proof.
    intros fs n Hi p fs' l l' H. induction H as [l|p k f fs' l l' v w Hv Hit H IH|p f fs' l l' w Hw H IH]; intros He m m' s Hm Ho Hl Hlm Hh.
    - inversion Hm; subst. apply seq_end in Ho. rewrite !skipn_end by lia. reflexivity.
    - inversion Hm as [|? ? ? ? ? m2 d d' Hd Hid Hm2|]; subst. inversion He as [|? ? ? ? _ He2]; subst.
      change (old_fields (Some k :: p)) with (k :: old_fields p) in Ho. apply seq_step in Ho. destruct Ho as (Hs & -> & Ho).
      rewrite (skipn_step _ _ _ _ Hv), (skipn_step _ _ _ _ Hd). cbn [eqls]. f_equal.
      + apply (Hi _ _ _ _ _ (Hh v (nth_error_In _ _ Hv)) Hit Hid).
      + apply IH; assumption.
    - inversion Hm as [| |? ? ? ? m2 w2 Hw2 Hm2]; subst. inversion He as [|? ? ? ? Hen He2]; subst. destruct Hen as (_ & _ & Hq).
      rewrite Hw in Hw2. inversion Hw2; subst w2. cbn [eqls]. rewrite (new_refl f w Hw Hq). cbn [andb]. apply IH; assumption.
  Qed.

  Lemma named_entries : forall fs, Forall2 (entry fs) (map Some (seq 0 (List.length fs))) fs.
  Proof.
    intros fs. assert (H : forall gs s, skipn s fs = gs -> Forall2 (entry fs) (map Some (seq s (List.length gs))) gs).
    { induction gs as [|g gs IH]; intros s Hs; [constructor|]. cbn [List.length seq map].
      assert (Hg : nth_error fs s = Some g) by (revert s Hs; clear; induction fs as [|f fs IH]; intros [|s] H; try discriminate; [inversion H; reflexivity|apply IH; exact H]).
      constructor; [exact Hg|]. apply IH. rewrite (skipn_step _ _ _ _ Hg) in Hs. inversion Hs. reflexivity. }
    apply (H fs 0). reflexivity.
  Qed.
  Lemma named_old : forall n s, old_fields (map Some (seq s n)) = seq s n.
  Proof. induction n as [|n IH]; intros s; [reflexivity|]. cbn [seq map]. unfold old_fields in *. cbn [flat_map app]. rewrite IH. reflexivity. Qed.

  Lemma eqb_moved : forall n,
    (forall id v w d d', height v <= n -> mv id v w -> mv id d d' -> value_eqb x' w d' = value_eqb x v d) /\
    (forall t v w d d', height v <= n -> mvi t v w -> mvi t d d' -> value_eqb x' w d' = value_eqb x v d).
  Proof.
    induction n as [|n [IH1 IH2]]; [split; intros; destruct v as [| | | | |[]| | |]; cbn in *; lia|].
    assert (Hin : forall l, S (list_max (map height l)) <= S n -> forall u, In u l -> height u <= n).
    { intros l H u Hu. pose proof (height_in u l Hu). lia. }
    assert (H1 : forall id v w d d', height v <= S n -> mv id v w -> mv id d d' -> value_eqb x' w d' = value_eqb x v d).
    { intros id v w d d' Hh Hv Hd.
      inversion Hv as [? td td' fs fs' l l' Hst Hst' Hl Hf|? td vs df i va b t u u' Htd Hb Hi Hvb Hit|? td vs df i va Htd Hb Hi Hvb|? td vs df i va fs l l' Htd Hb Hi Hvb Hl Hf|? td k v0 Htd Hb]; subst.
      - inversion Hd as [? td2 td2' fs2 fs2' m m' Hst2 Hst2' Hm Hg|? ? ? ? ? ? ? ? ? ? Htd Hb|? ? ? ? ? ? Htd Hb|? ? ? ? ? ? ? ? ? Htd Hb|? ? ? ? Htd Hb]; subst;
          try (destruct Hst; congruence).
        assert (td2 = td /\ fs2 = fs) as [-> ->] by (destruct Hst, Hst2; split; congruence).
        assert (td2' = td' /\ fs2' = fs') as [-> ->] by (destruct Hst', Hst2'; split; congruence).
        destruct (struct_pair id td td' fs fs' Hst Hst') as (_ & _ & Ho & He). rewrite !value_eqb_eq.
        rewrite (eqb_fields fs n IH2 _ _ _ _ Hf He m m' 0 Hg); [reflexivity|rewrite Nat.sub_0_r; exact Ho|exact Hl|exact Hm|apply Hin; exact Hh].
      - inversion Hd as [? td2 td2' fs2 fs2' m m' Hst2 Hst2' Hm Hg|? td2 vs2 df2 j va2 b2 t2 u2 u2' Htd2 Hb2 Hj Hvb2 Hit2|? td2 vs2 df2 j va2 Htd2 Hb2 Hj Hvb2|? td2 vs2 df2 j va2 fs2 m m' Htd2 Hb2 Hj Hvb2 Hm Hg|? td2 k2 v2 Htd2 Hb2]; subst;
          try (destruct Hst2; congruence); assert (td2 = td) by congruence; subst td2; try congruence; assert (vs2 = vs) by congruence; subst vs2;
          rewrite !value_eqb_eq; destruct (Nat.eqb_spec i j) as [->|_]; try reflexivity; cbn [andb]; try congruence.
        assert (t2 = t) by congruence. subst t2. cbn [eqls]. rewrite (IH2 t u u' u2 u2'); [reflexivity| |exact Hit|exact Hit2].
        apply (Hin [u] Hh). left; reflexivity.
      - inversion Hd as [? td2 td2' fs2 fs2' m m' Hst2 Hst2' Hm Hg|? td2 vs2 df2 j va2 b2 t2 u2 u2' Htd2 Hb2 Hj Hvb2 Hit2|? td2 vs2 df2 j va2 Htd2 Hb2 Hj Hvb2|? td2 vs2 df2 j va2 fs2 m m' Htd2 Hb2 Hj Hvb2 Hm Hg|? td2 k2 v2 Htd2 Hb2]; subst;
          try (destruct Hst2; congruence); assert (td2 = td) by congruence; subst td2; try congruence; assert (vs2 = vs) by congruence; subst vs2;
          rewrite !value_eqb_eq; destruct (Nat.eqb_spec i j) as [->|_]; try reflexivity; cbn [andb]; congruence.
      - inversion Hd as [? td2 td2' fs2 fs2' m m' Hst2 Hst2' Hm Hg|? td2 vs2 df2 j va2 b2 t2 u2 u2' Htd2 Hb2 Hj Hvb2 Hit2|? td2 vs2 df2 j va2 Htd2 Hb2 Hj Hvb2|? td2 vs2 df2 j va2 fs2 m m' Htd2 Hb2 Hj Hvb2 Hm Hg|? td2 k2 v2 Htd2 Hb2]; subst;
          try (destruct Hst2; congruence); assert (td2 = td) by congruence; subst td2; try congruence; assert (vs2 = vs) by congruence; subst vs2;
          rewrite !value_eqb_eq; destruct (Nat.eqb_spec i j) as [->|_]; try reflexivity; cbn [andb]; try congruence.
        assert (fs2 = fs) by congruence. subst fs2.
        rewrite (eqb_fields fs n IH2 _ _ _ _ Hf (named_entries fs) m m' 0 Hg); [reflexivity| |exact Hl|exact Hm|apply Hin; exact Hh].
        rewrite Nat.sub_0_r. apply named_old.
      - inversion Hd; subst; try congruence.
        + match goal with H : struct_type E _ _ _ |- _ => destruct H; congruence end.
        + eapply eqb_ext; reflexivity. }
    split; [exact H1|].
    assert (Hbase : forall b v w d d', height v <= S n -> mvb b v w -> mvb b d d' -> value_eqb x' w d' = value_eqb x v d).
    { intros b v w d d' Hh Hv Hd. inversion Hv; subst; inversion Hd; subst; [eapply eqb_ext; reflexivity|eapply H1; eassumption]. }
    assert (Hlist : forall b l l', mvl b l l' -> forall m m', mvl b m m' -> (forall u, In u l -> height u <= n) -> eqls x' l' m' = eqls x l m).
    { intros b l. induction l as [|v l IHl]; intros l' Hv m m' Hm Hh; inversion Hv; subst; inversion Hm; subst; try reflexivity.
      cbn [eqls]. f_equal; [|apply IHl; [assumption|assumption|intros z Hz; apply Hh; right; exact Hz]].
      assert (Hhv : height v <= S n) by (specialize (Hh v (or_introl eq_refl)); lia). eapply Hbase; eassumption. }
    intros t v w d d' Hh Hv Hd. inversion Hv; subst; inversion Hd; subst; rewrite ?(value_eqb_eq _ (VOpt _)), ?(value_eqb_eq _ (VVec _)); try reflexivity; cbn [height] in Hh;
      try (eapply Hbase; [|eassumption|eassumption]; lia).
    eapply Hlist; [eassumption|eassumption|]. apply Hin. exact Hh.
  Qed.
  Lemma eqb_item : forall t v w d d', mvi t v w -> mvi t d d' -> value_eqb x' w d' = value_eqb x v d.
  Proof. intros t v w d d'. apply (proj2 (eqb_moved (height v))). reflexivity. Qed.

  (** *** Written the same *)
  Lemma show_same : forall s v, show_simple x' s v = show_simple x s v.
  Proof. intros s v. destruct s; reflexivity. Qed.
  Lemma prim_same : forall tn k v, show_prim x' tn k v = show_prim x tn k v.
  Proof. intros tn k v. destruct k; reflexivity. Qed.
  Lemma simple_same : forall q s v, enc_simple x' q s v = enc_simple x q s v.
  Proof. intros q s v. unfold enc_simple. rewrite show_same. reflexivity. Qed.

  Section Step.
    Variables enc enc' : nat -> value -> how -> option (list wnode).
    Variables ea ea' : nat -> value -> option (list attr * nsmap).
    Hypothesis Henc : forall id v w h, mv id v w -> enc' id w h = enc id v h.
    Hypothesis Hea : forall id v w, mv id v w -> ea' id w = ea id v.
    Hypothesis Hsome : forall id w h, encode x' E' id w h <> None -> enc' id w h <> None.

    Lemma quiet_base : forall b v w, mvb b v w -> match b with BSimple _ => w = v | BUser id => mv id v w end.
    Proof. intros b v w H. inversion H; subst; auto. Qed.

    Lemma quiet_show : forall b v w, mvb b v w -> attr_show x' enc' b w = attr_show x enc b v.
    Proof. intros b v w H. apply quiet_base in H. unfold attr_show. destruct b; [subst w; apply show_same|]. rewrite (Henc _ _ _ _ H). reflexivity. Qed.

    Lemma quiet_concat : forall b g g', (forall v w, mvb b v w -> g' w = g v) -> forall l l', mvl b l l' -> oconcat (A := value) (B := wnode) g' l' = oconcat g l.
    Proof.
      intros b g g' H l. induction l as [|v l IH]; intros l' Hl; inversion Hl; subst; [reflexivity|]. cbn [oconcat]. rewrite (H v w), IH by assumption. reflexivity.
    Qed.

    Section Struct.
      Variables (id : nat) (td td' : typedef) (fs fs' : list field) (l l' : list value).
      Hypothesis Hst : struct_type E id td fs.
      Hypothesis Hst' : struct_type E' id td' fs'.
      Hypothesis Hself : mv id (VRec l) (VRec l').
      Let ra := t_attrs td.

      Lemma quiet_out : forall f v w b, In f fs -> mvi (f_ty f) v w -> left_out x' (VRec l') w f b = left_out x (VRec l) v f b.
      Proof.
        intros f v w b Hf Hv. destruct (Hfun id td fs f Hst Hf) as [Hd Hs]. unfold left_out. f_equal; [f_equal|].
        - destruct (ya_skip_if (f_attrs f)) as [g|]; [|reflexivity]. apply (Hs g l l' v w eq_refl Hself Hv).
        - destruct (ya_default (f_attrs f)) as [d|]; [|reflexivity]. apply (eqb_item (f_ty f)); [exact Hv|]. apply Hd. reflexivity.
      Qed.

      Lemma quiet_attr : forall f v w, In f fs -> mvi (f_ty f) v w -> enc_attr x' enc' ra (VRec l') f w = enc_attr x enc ra (VRec l) f v.
      Proof.
        intros f v w Hf Hv. unfold enc_attr. pose proof Hv as Hv0. rewrite (quiet_out f v w false Hf Hv0).
        destruct (f_ty f) as [b|b|b|b] eqn:Hty; inversion Hv; subst; try reflexivity;
          match goal with H : mvb _ _ _ |- _ => rewrite (quiet_show _ _ _ H) end; reflexivity.
      Qed.

      Lemma quiet_field : forall f v w, In f fs -> mvi (f_ty f) v w -> enc_field x' enc' ra (VRec l') f w = enc_field x enc ra (VRec l) f v.
      Proof.
        intros f v w Hf Hv. unfold enc_field. pose proof Hv as Hv0. rewrite (quiet_out f v w true Hf Hv0).
        destruct (ya_attribute (f_attrs f)); [reflexivity|].
        destruct (f_ty f) as [b|b|b|b] eqn:Hty; inversion Hv; subst;
          repeat match goal with H : mvb _ _ _ |- _ => apply quiet_base in H end;
          (destruct b as [s|i]; subst;
           [ destruct (ya_text (f_attrs f)); [reflexivity|]; destruct (left_out _ _ _ _ _); [reflexivity|]; destruct (ya_cdata (f_attrs f)); [reflexivity|]; try reflexivity; try apply simple_same
           | destruct (ya_text (f_attrs f)); [reflexivity|]; destruct (left_out _ _ _ _ _); [reflexivity|]; destruct (ya_cdata (f_attrs f)); [reflexivity|]; try reflexivity; try (apply Henc; assumption)]).
        - apply (quiet_concat (BSimple s)); [|assumption]. intros va wa Ha. apply quiet_base in Ha. subst wa. apply simple_same.
        - apply (quiet_concat (BUser i)); [|assumption]. intros va wa Ha. apply quiet_base in Ha. apply Henc. exact Ha.
      Qed.

      Lemma quiet_new : forall f w, missing_value x' f = Some w -> leaves_no_trace x' E' f -> flat_field f = false ->
        enc_field x' enc' ra (VRec l') f w = Some [] /\ (ya_attribute (f_attrs f) = true -> enc_attr x' enc' ra (VRec l') f w = Some []).
      Proof.
        intros f w Hw [Ht He] Hff.
        assert (Hd : forall d, ya_default (f_attrs f) = Some d -> value_eqb x' (x_default x' d) (x_default x' d) = true) by (intros d Hdd; apply equal_values; exact (He d Hdd)).
        unfold missing_value in Hw. unfold enc_field, enc_attr.
        assert (Hout : forall d, f_ty f = f_ty f -> ya_default (f_attrs f) = Some d -> w = x_default x' d -> left_out x' (VRec l') w f true = true).
        { intros d _ Hdd ->. unfold left_out. rewrite Hdd, (Hd d Hdd). apply orb_true_r. }
        destruct (f_ty f) as [b|b|b|b] eqn:Hty.
        - destruct (ya_default (f_attrs f)) as [d|] eqn:Hdd; [|discriminate]. injection Hw as Hw.
          destruct (ya_attribute (f_attrs f)).
          + split; [reflexivity|]. intros _. subst w. change (dv d) with (x_default x' d).
            assert (Hsh : exists u, attr_show x' enc' b (x_default x' d) = Some u).
            { destruct b as [s|i]; cbn [attr_show]; specialize (Ht d eq_refl).
              - destruct (show_simple x' s (x_default x' d)) as [u|]; [eauto|congruence].
              - apply Hsome in Ht. destruct (enc' i (x_default x' d) Inside) as [u|]; [cbn; eauto|congruence]. }
            destruct Hsh as [u ->]. cbn [omap].
            assert (Hlo : left_out x' (VRec l') (x_default x' d) f false = true) by (unfold left_out; rewrite Hdd, (Hd d eq_refl); apply orb_true_r).
            rewrite Hlo. reflexivity.
          + rewrite Ht. split; [|discriminate]. rewrite (Hout d eq_refl eq_refl) by (symmetry; exact Hw). reflexivity.
        - inversion Hw; subst w. split; [|reflexivity]. destruct (ya_attribute (f_attrs f)); [reflexivity|]. destruct Ht as [Ht|[Ht1 Ht2]]; [discriminate Ht|]. rewrite Ht1, Ht2.
          destruct (left_out _ _ _ _ _); [reflexivity|]. destruct b; reflexivity.
        - inversion Hw; subst w. split; [|reflexivity]. destruct (ya_attribute (f_attrs f)); [reflexivity|]. destruct Ht as [Ht|[Ht1 Ht2]]; [discriminate Ht|]. rewrite Ht1, Ht2.
          destruct (left_out _ _ _ _ _); [reflexivity|]. destruct b; reflexivity.
        - destruct b as [s|i]; [|contradiction]. destruct Ht as (Ha & Ht1 & Ht2). inversion Hw; subst w. rewrite Ha, Ht1, Ht2. split; [|discriminate].
          destruct (left_out _ _ _ _ _); reflexivity.
      Qed.

      Lemma quiet_fields : forall p gs m m', mvf p gs m m' -> Forall2 (entry fs) p gs -> forall s, old_fields p = seq s (List.length fs - s) -> List.length m = List.length fs ->
        enc_fields x' enc' ra (VRec l') gs m' = enc_fields x enc ra (VRec l) (skipn s fs) (skipn s m) /\
        enc_tag x' enc' ea' ra (VRec l') gs m' = enc_tag x enc ea ra (VRec l) (skipn s fs) (skipn s m).
      Proof.
        intros p gs m m' H. induction H as [m|p k f gs m m' v w Hv Hit H IH|p f gs m m' w Hw H IH]; intros He s Ho Hm.
        - apply seq_end in Ho. rewrite !skipn_end by lia. split; reflexivity.
        - inversion He as [|? ? ? ? Hk He2]; subst. cbn [entry] in Hk.
          change (old_fields (Some k :: p)) with (k :: old_fields p) in Ho. apply seq_step in Ho. destruct Ho as (Hs & -> & Ho).
          rewrite (skipn_step _ _ _ _ Hv), (skipn_step _ _ _ _ Hk). destruct (IH He2 (S s) Ho Hm) as [IH1 IH2].
          pose proof (nth_error_In _ _ Hk) as Hf. cbn [enc_fields enc_tag]. rewrite IH1, IH2, (quiet_field f v w Hf Hit), (quiet_attr f v w Hf Hit). split; [reflexivity|]. clear IH IH1 IH2.
          destruct (enc_tag _ _ _ _ _ _ _) as [[[own child] ns]|]; [|reflexivity]. destruct (ya_attribute (f_attrs f)); [reflexivity|].
          destruct (ya_flatten (f_attrs f)); [|reflexivity]. destruct (f_ty f) as [b|b|b|b]; try reflexivity. inversion Hit as [? ? ? Hb| | | | |]; subst.
          apply quiet_base in Hb. destruct b as [|i]; [reflexivity|]. rewrite (Hea i v w Hb). reflexivity.
        - inversion He as [|? ? ? ? Hen He2]; subst. destruct Hen as (_ & Hff & Hq). destruct (IH He2 s Ho Hm) as [IH1 IH2].
          destruct (quiet_new f w Hw Hq Hff) as [Hn1 Hn2]. cbn [enc_fields enc_tag]. rewrite Hn1, IH1, IH2. clear IH IH1 IH2. split.
          + destruct (enc_fields _ _ _ _ _ _); reflexivity.
          + destruct (enc_tag _ _ _ _ _ _ _) as [[[own child] ns]|]; [|reflexivity]. unfold flat_field in Hff. destruct (ya_attribute (f_attrs f)); [rewrite Hn2; reflexivity|].
            cbn [negb andb] in Hff. rewrite Hff. reflexivity.
      Qed.
    End Struct.

    (** Variants *)
    Lemma quiet_item : forall b v w h, mvb b v w -> enc_item x' enc' b w h = enc_item x enc b v h.
    Proof.
      intros b v w h H. apply quiet_base in H. unfold enc_item. destruct b as [s|i]; [subst w; rewrite show_same; reflexivity|apply Henc; exact H].
    Qed.
    Lemma quiet_named : forall fs ra p gs m m', mvf p gs m m' -> Forall2 (entry fs) p gs -> (forall o, In o p -> o <> None) -> forall s, old_fields p = seq s (List.length fs - s) -> List.length m = List.length fs ->
      enc_named_fields x' enc' ra gs m' = enc_named_fields x enc ra (skipn s fs) (skipn s m).
    Proof.
      intros fs ra p gs m m' H. induction H as [m|p k f gs m m' v w Hv Hit H IH|p f gs m m' w Hw H IH]; intros He Hp s Ho Hm.
      - apply seq_end in Ho. rewrite !skipn_end by lia. reflexivity.
      - inversion He as [|? ? ? ? Hk He2]; subst. cbn [entry] in Hk.
        change (old_fields (Some k :: p)) with (k :: old_fields p) in Ho. apply seq_step in Ho. destruct Ho as (Hs & -> & Ho).
        rewrite (skipn_step _ _ _ _ Hv), (skipn_step _ _ _ _ Hk). cbn [enc_named_fields]. rewrite (IH He2 (fun o Hin => Hp o (or_intror Hin)) (S s) Ho Hm). f_equal.
        unfold enc_named_field. destruct (f_ty f) as [b|b|b|b]; inversion Hit; subst; try reflexivity.
        + match goal with H : mvb _ _ _ |- _ => apply quiet_base in H end. destruct b; [subst; apply simple_same|apply Henc; assumption].
        + apply (quiet_concat b); [|assumption]. intros v0 w0 H0. apply quiet_item. exact H0.
      - exfalso. apply (Hp None); [left; reflexivity|reflexivity].
    Qed.
    Lemma quiet_payload_item : forall q b v w, mvb b v w -> enc_payload_item x' enc' q b w = enc_payload_item x enc q b v.
    Proof.
      intros q b v w H. unfold enc_payload_item. pose proof (quiet_item b v w Inside H) as Hi. apply quiet_base in H. destruct b as [s|i].
      - subst w. destruct s; try (rewrite Hi; reflexivity); destruct v; reflexivity.
      - rewrite Hi. reflexivity.
    Qed.
    Lemma quiet_payload : forall h q fl t v w, mvi t v w -> enc_payload x' enc' h q fl t w = enc_payload x enc h q fl t v.
    Proof.
      intros h q fl t v w H. unfold enc_payload. inversion H as [b v0 w0 Hb|b|b v0 w0 Hb|b l0 l0' Hl|b|b v0 w0 Hb]; subst; try reflexivity.
      - pose proof (quiet_payload_item q b v w Hb) as Hi. apply quiet_base in Hb. destruct b as [s|i]; [subst w; apply simple_same|].
        destruct fl; [apply Henc; exact Hb|exact Hi].
      - apply quiet_payload_item. exact Hb.
      - apply (quiet_concat b); [|exact Hl]. intros v0 w0 H0. apply quiet_payload_item. exact H0.
    Qed.

    Lemma quiet_parts : forall id v w td td', mv id v w -> nth_error E id = Some td -> nth_error E' id = Some td' -> (forall k, t_body td <> DPrim k) ->
      (forall h, enc_content x' enc' h td' w = enc_content x enc h td v) /\ enc_start x' enc' ea' td' w = enc_start x enc ea td v.
    Proof.
      intros id v w td td' H Htd Htd' Hnp. pose proof (Hre id) as Hr. rewrite Htd, Htd' in Hr. destruct Hr as (_ & Hat & Hr).
      inversion H as [? td2 td2' fs fs' l l' Hst Hst' Hl Hf|? td2 vs df i va b t u u' Ht2 Hb Hi Hvb Hit|? td2 vs df i va Ht2 Hb Hi Hvb|? td2 vs df i va fs l l' Ht2 Hb Hi Hvb Hl Hf|? td2 k v0 Ht2 Hb]; subst.
      - destruct (struct_pair id td2 td2' fs fs' Hst Hst') as (_ & _ & Ho & He).
        assert (td2 = td) by (destruct Hst; congruence). subst td2. assert (td2' = td') by (destruct Hst'; congruence). subst td2'.
        destruct (quiet_fields id td fs l l' Hst H (P id) fs' l l' Hf He 0 ltac:(rewrite Nat.sub_0_r; exact Ho) Hl) as [H1 H2].
        unfold enc_content, enc_start. rewrite (proj2 Hst), (proj2 Hst'), Hat. split; [intros _; exact H1|exact H2].
      - assert (td2 = td) by congruence. subst td2. rewrite Hb in Hr. destruct (t_body td') as [|vs' df'|] eqn:Hb'; try contradiction. subst vs'.
        unfold enc_content, enc_start. rewrite Hb, Hb', Hi, Hat. split; [|reflexivity]. intros h. unfold enc_variant. rewrite Hvb. apply quiet_payload. exact Hit.
      - assert (td2 = td) by congruence. subst td2. rewrite Hb in Hr. destruct (t_body td') as [|vs' df'|] eqn:Hb'; try contradiction. subst vs'.
        unfold enc_content, enc_start. rewrite Hb, Hb', Hi, Hat. split; [|reflexivity]. intros h. unfold enc_variant. rewrite Hvb. reflexivity.
      - assert (td2 = td) by congruence. subst td2. rewrite Hb in Hr. destruct (t_body td') as [|vs' df'|] eqn:Hb'; try contradiction. subst vs'.
        unfold enc_content, enc_start. rewrite Hb, Hb', Hi, Hat. split; [|reflexivity]. intros h. unfold enc_variant. rewrite Hvb.
        rewrite (quiet_named fs (t_attrs td) _ _ _ _ Hf (named_entries fs)) with (s := 0); [reflexivity| | |exact Hl].
        + intros o Ho. apply in_map_iff in Ho. destruct Ho as (k & <- & _). discriminate.
        + rewrite Nat.sub_0_r. apply named_old.
      - exfalso. apply (Hnp k). congruence.
    Qed.

    Lemma quiet_type : forall id v w, mv id v w ->
      (forall h, enc_type x' E' enc' ea' id w h = enc_type x E enc ea id v h) /\ enc_type_attrs x' E' enc' ea' id w = enc_type_attrs x E enc ea id v.
    Proof.
      intros id v w H. unfold enc_type, enc_type_attrs. pose proof (Hre id) as Hr.
      destruct (nth_error E id) as [td|] eqn:Htd, (nth_error E' id) as [td'|] eqn:Htd'; try contradiction; [|split; reflexivity].
      destruct Hr as (Hn & Hat & Hr).
      assert (Hsr : ser_root td' = ser_root td) by (unfold ser_root; rewrite Hn, Hat; reflexivity).
      destruct (t_body td) as [fs|vs df|k] eqn:Hb, (t_body td') as [fs'|vs' df'|k'] eqn:Hb'; try contradiction.
      - destruct (quiet_parts id v w td td' H Htd Htd' ltac:(congruence)) as [H1 H2]. rewrite Hat, Hsr, H2. split; [|reflexivity].
        intros [|o]; [apply H1|]. rewrite (H1 (Under o)). reflexivity.
      - destruct (quiet_parts id v w td td' H Htd Htd' ltac:(congruence)) as [H1 H2]. rewrite Hat, Hsr, H2. split; [|reflexivity].
        intros [|o]; [apply H1|]. rewrite (H1 (Under o)). reflexivity.
      - subst k'. assert (w = v).
        { inversion H; subst; try congruence; try reflexivity. match goal with H0 : struct_type E _ _ _ |- _ => destruct H0; congruence end. }
        subst w. split; [|reflexivity]. intros h. rewrite Hn, prim_same. destruct h; reflexivity.
    Qed.
  End Step.

  Theorem quiet_all : forall n id v w, mv id v w ->
    (forall h, fst (enc_over x' E' n) id w h = fst (enc_over x E n) id v h) /\ snd (enc_over x' E' n) id w = snd (enc_over x E n) id v.
  Proof.
    induction n as [|n IH]; intros id v w H; [split; reflexivity|]. cbn [enc_over fst snd]. apply quiet_type; [| | |exact H]; intros; [apply IH; assumption|apply IH; assumption|].
    match goal with H : encode _ _ _ _ _ <> None |- _ => revert H end. apply over_some.
  Qed.

  Theorem quiet_encode : forall id v w h, mv id v w -> encode x' E' id w h = encode x E id v h.
  Proof.
    intros id v w h H. unfold encode. set (n := S (max (height v) (height w))).
    rewrite <- (proj1 (over_ext x' E' n (S (height w)) w ltac:(unfold n; lia) ltac:(lia)) id h).
    rewrite <- (proj1 (over_ext x E n (S (height v)) v ltac:(unfold n; lia) ltac:(lia)) id h).
    apply quiet_all. exact H.
  Qed.
End Quiet.
