(** * Round trips of structs with flattened fields. *)
From Verif Require Import Str Num Xml XmlText Reader Schema De SpecTree SpecText SpecNum SpecTyped SpecStruct SpecSer SpecValue
  SpecEnc SpecRound SpecRoundFlat TreeFacts TreeProofs TextProofs ValueProofs StructProofs StructReads EncProofs SerProofs
  RoundNames RoundTexts RoundCore RoundFields RoundProofs SpecAlike InsertProofs AlikeTrees RewriteProofs RoundFlatCtx RoundFlatFields
  RoundFlatElem RoundFlatOwn.
Open Scope list_scope.

(** ** Lists *)
Lemma ctx_trans : forall (P : node -> Prop) l l' l'', (forall k k', AlikeTree k k' -> P k -> P k') ->
  Ctx P l l' -> Ctx P l' l'' -> Ctx P l l''.
Proof.
  intros P l l' l'' HP H1 H2. revert l H1. induction H2 as [|k k' m m' Hk Hc IH|k m m' Hk Hc IH]; intros l H1.
  - exact H1.
  - inversion H1 as [|k0 ? l0 ? Hk0 Hc0|? ? ? Hp Hc0]; subst.
    + constructor; [eapply alike_trans; eassumption|apply IH; exact Hc0].
    + apply cx_more; [eapply HP; eassumption|apply IH; exact Hc0].
  - apply cx_more; [exact Hk|apply IH; exact H1].
Qed.
Lemma flat_map_parts : forall A B (g : A -> list B) ls, flat_map g (concat ls) = concat (map (flat_map g) ls).
Proof. intros A B g. induction ls as [|l ls IH]; [reflexivity|]. cbn [concat map]. rewrite flat_map_app, IH. reflexivity. Qed.
Lemma choose : forall A (G : nat -> A -> Prop) n, (forall j, j < n -> exists a, G j a) ->
  exists l, List.length l = n /\ forall j a, nth_error l j = Some a -> G j a.
Proof.
  intros A G. induction n as [|n IH]; intros H; [exists []; split; [reflexivity|intros [|j] a Hj; discriminate]|].
  destruct (IH (fun j Hj => H j ltac:(lia))) as (l & Hl & Hg). destruct (H n ltac:(lia)) as [a Ha]. exists (l ++ [a]).
  split; [rewrite app_length; cbn; lia|]. intros j c Hj. destruct (Nat.lt_ge_cases j (List.length l)) as [Hlt|Hge].
  - rewrite nth_error_app1 in Hj by exact Hlt. apply (Hg j c Hj).
  - rewrite nth_error_app2 in Hj by exact Hge. destruct (j - List.length l) as [|d] eqn:Hd; [|destruct d; discriminate].
    injection Hj as <-. replace j with n by lia. exact Ha.
Qed.
Lemma nth_of : forall A (l : list A) j, j < List.length l -> exists a, nth_error l j = Some a.
Proof. intros A l j H. destruct (nth_error l j) eqn:He; [eauto|]. apply nth_error_None in He. lia. Qed.
Lemma nth_lt : forall A (l : list A) j a, nth_error l j = Some a -> j < List.length l.
Proof. intros A l j a H. apply nth_error_Some. congruence. Qed.

(** ** Contributions, field by field *)
Lemma parts_contrib : forall A (g : field -> bool) (h : A -> outcome (list (nat * value))) fs its Rs i,
  List.length its = List.length fs -> List.length Rs = List.length fs ->
  (forall j f it R, nth_error fs j = Some f -> nth_error its j = Some it -> nth_error Rs j = Some R ->
     ocollect h R = OOk (if g f then map (pair (i + j)) it else [])) ->
  ocollect h (concat Rs) = OOk (contrib g i fs its).
Proof.
  intros A g h. induction fs as [|f fs IH]; intros [|it its] [|R Rs] i H1 H2 H; try discriminate; [reflexivity|].
  cbn [concat contrib]. rewrite ocollect_app. pose proof (H 0 f it R eq_refl eq_refl eq_refl) as H0. rewrite Nat.add_0_r in H0. rewrite H0.
  rewrite (IH its Rs (S i)); [reflexivity|cbn in *; lia..|].
  intros j f' it' R' A1 A2 A3. rewrite Nat.add_succ_comm. apply (H (S j)); assumption.
Qed.
Lemma fields_contrib : forall (g : field -> bool) (h : nat * field -> outcome (list (nat * value))) fs its i,
  List.length its = List.length fs ->
  (forall j f it, nth_error fs j = Some f -> nth_error its j = Some it -> h (i + j, f) = OOk (if g f then map (pair (i + j)) it else [])) ->
  ocollect h (combine (seq i (List.length fs)) fs) = OOk (contrib g i fs its).
Proof.
  intros g h. induction fs as [|f fs IH]; intros [|it its] i H1 H; try discriminate; [reflexivity|].
  rewrite combine_seq_cons, ocollect_cons. cbn [contrib]. pose proof (H 0 f it eq_refl eq_refl) as H0. rewrite Nat.add_0_r in H0. rewrite H0.
  rewrite (IH its (S i)); [reflexivity|cbn in *; lia|].
  intros j f' it' A1 A2. rewrite Nat.add_succ_comm. apply (H (S j)); assumption.
Qed.

Lemma ntexts_app : forall a b, ntexts (a ++ b) = ntexts a + ntexts b.
Proof. intros a b. unfold ntexts. rewrite filter_app, app_length. reflexivity. Qed.
Lemma ntexts_some : forall k l, In k l -> some_text k = true -> ntexts l <> 0.
Proof.
  intros k l H Hk Hn. unfold ntexts in Hn. apply length_zero_iff_nil in Hn.
  assert (Hin : In k (filter some_text l)) by (apply filter_In; split; assumption). rewrite Hn in Hin. destruct Hin.
Qed.
Lemma ntexts_one : forall Ps i, (forall j P, nth_error Ps j = Some P -> ntexts P <= if Nat.eqb j i then 1 else 0) -> ntexts (concat Ps) <= 1.
Proof.
  induction Ps as [|P Ps IH]; intros i H; [cbn; lia|]. cbn [concat]. rewrite ntexts_app. pose proof (H 0 P eq_refl) as H0.
  assert (Hz : forall Ps, (forall j P, nth_error Ps j = Some P -> ntexts P <= 0) -> ntexts (concat Ps) <= 0).
  { clear. induction Ps as [|P Ps IH]; intros H; [cbn; lia|]. cbn [concat]. rewrite ntexts_app. pose proof (H 0 P eq_refl).
    pose proof (IH (fun j Q Hj => H (S j) Q Hj)). lia. }
  destruct i as [|i]; cbn [Nat.eqb] in H0.
  - pose proof (Hz Ps (fun j Q Hj => H (S j) Q Hj)). lia.
  - pose proof (IH i (fun j Q Hj => H (S j) Q Hj)). lia.
Qed.
Lemma ntexts_elems : forall l, (forall k, In k l -> is_elem k) -> ntexts l = 0.
Proof.
  intros l H. unfold ntexts. replace (filter some_text l) with (@nil wnode); [reflexivity|]. induction l as [|k l IH]; [reflexivity|]. cbn [filter].
  pose proof (H k (or_introl eq_refl)) as Hk. destruct k; try destruct Hk. cbn [some_text]. apply IH. intros c Hc. apply H. right. exact Hc.
Qed.

(** ** What alike kids give *)
Section KidsAlike.
  Variable x : ext.
  Variable E : env.
  Variable k : nat.
  Lemma kid_fits_alike : forall ra fs t t' o o', AlikeTree t t' -> Rewritable o t -> Rewritable o' t' ->
    KidFits x E (attr_fine_at x E k) (flat_fine_at x E k) ra fs t -> KidFits x E (attr_fine_at x E k) (flat_fine_at x E k) ra fs t'.
  Proof.
    intros ra fs t t' o o' Ha Hr Hr' H.
    inversion H as [? ? ? Hs|? ? cn ca cm ck i f s Hff Hbase Hns Hck|? ? cn ca cm ck i f id' Hff Hbase Hfit|? ? cn ca cm ck Hff]; subst.
    - inversion Ha; subst. constructor; assumption.
    - inversion Ha as [|? ? ? ? n1 a1 m1 k1 Hn1 Hv1 Hf1]; subst. eapply kid_simple; [rewrite <- (field_for_alike _ fs cn n1 Hn1); exact Hff|exact Hbase| |].
      + rewrite <- (proj2 Hn1). exact Hns.
      + eapply small_shape; eassumption.
    - pose proof (conforms_alike x E k _ _ o o' id' Ha Hr Hr') as Hi. rewrite !Conforms_Fits in Hi. specialize (Hi Hfit).
      inversion Ha as [|? ? ? ? n1 a1 m1 k1 Hn1 Hv1 Hf1]; subst.
      eapply kid_user; [rewrite <- (field_for_alike _ fs cn n1 Hn1); exact Hff|exact Hbase|exact Hi].
    - inversion Ha as [|? ? ? ? n1 a1 m1 k1 Hn1 Hv1 Hf1]; subst. apply kid_other. rewrite <- (field_for_alike _ fs cn n1 Hn1). exact Hff.
  Qed.
  Lemma kid_given_alike : forall ra fs t t' o o', AlikeTree t t' -> Rewritable o t -> Rewritable o' t' ->
    kid_given x (decode x E (attr_value_at x E k) (flat_value_at x E k) false) ra fs t' =
    kid_given x (decode x E (attr_value_at x E k) (flat_value_at x E k) false) ra fs t.
  Proof.
    intros ra fs t t' o o' Ha Hr Hr'. pose proof (fun id => value_alike x E k false id t t' o o' Ha Hr Hr') as Hv.
    inversion Ha as [|? ? ? ? n1 a1 m1 k1 Hn1 Hv1 Hf1]; subst; [reflexivity|]. cbn [kid_given]. rewrite <- (field_for_alike _ fs n n1 Hn1).
    destruct (field_for ra fs n) as [[i f]|]; [|reflexivity]. destruct (base_of (f_ty f)) as [s|id'].
    - unfold simple_given. rewrite !match_text, (text_alike ks k1 Hf1). reflexivity.
    - specialize (Hv id'). rewrite !value_of_decode in Hv. rewrite Hv. reflexivity.
  Qed.
End KidsAlike.

(** ** Parts of the content and of the start tag *)
Lemma parts_of : forall x E b ra self fs vs p, FieldsLast x E b self fs vs -> enc_fields x (encode x E) ra self fs vs = Some p ->
  exists Ps, List.length Ps = List.length fs /\ List.length vs = List.length fs /\ p = concat Ps /\
  forall j f v P, nth_error fs j = Some f -> nth_error vs j = Some v -> nth_error Ps j = Some P ->
    FieldLasts x E b self f v /\ enc_field x (encode x E) ra self f v = Some P.
Proof.
  intros x E b ra self fs vs p H. revert p. induction H as [b self|b self f fs v vs Hf Hs IH]; intros p He; cbn [enc_fields] in He.
  - injection He as <-. exists []. repeat split; try reflexivity; destruct j; discriminate.
  - apply oapp_some in He. destruct He as (u & r & Hu & Hr & ->). destruct (IH r Hr) as (Ps & H1 & H2 & -> & H4).
    exists (u :: Ps). split; [cbn; congruence|]. split; [cbn; congruence|]. split; [reflexivity|].
    intros [|j] g w P A1 A2 A3; cbn [nth_error] in *; [|apply (H4 j); assumption].
    injection A1 as <-. injection A2 as <-. injection A3 as <-. split; assumption.
Qed.

Definition own_attr (x : ext) (E : env) (ra : yattr) (self : value) (q : field * value) : list attr :=
  if ya_attribute (f_attrs (fst q)) then written_attrs x E false ra self (fst q) (snd q) else [].
Definition child_attr (x : ext) (E : env) (ra : yattr) (self : value) (q : field * value) : list attr :=
  if ya_attribute (f_attrs (fst q)) then [] else written_attrs x E false ra self (fst q) (snd q).
Lemma tag_parts : forall x E ra self fs vs own child ns,
  enc_tag x (encode x E) (encode_attrs x E) ra self fs vs = Some (own, child, ns) ->
  own = concat (map (own_attr x E ra self) (combine fs vs)) /\ child = concat (map (child_attr x E ra self) (combine fs vs)) /\
  (forall j f v, nth_error fs j = Some f -> nth_error vs j = Some v -> ya_attribute (f_attrs f) = true ->
     exists a, enc_attr x (encode x E) ra self f v = Some a) /\
  (forall j f v id, nth_error fs j = Some f -> nth_error vs j = Some v -> flat_field f = true -> f_ty f = TBase (BUser id) ->
     exists a m, encode_attrs x E id v = Some (a, m) /\ forall q u, In (q, u) m -> exists u', In (q, u') ns).
Proof.
  intros x E ra self. induction fs as [|f fs IH]; intros [|v vs] own child ns H; cbn [enc_tag] in H; try discriminate.
  - injection H as <- <- <-. split; [reflexivity|]. split; [reflexivity|]. split; intros [|j] ? ?; discriminate.
  - destruct (enc_tag x (encode x E) (encode_attrs x E) ra self fs vs) as [[[own' child'] ns']|] eqn:Ht; [|discriminate].
    destruct (IH vs own' child' ns' Ht) as (-> & -> & H3 & H4). cbn [combine map concat].
    destruct (ya_attribute (f_attrs f)) eqn:Ha.
    + apply omap_some in H. destruct H as (a & Hea & H). injection H as -> -> ->.
      replace (own_attr x E ra self (f, v)) with a by (unfold own_attr, written_attrs; cbn [fst snd]; rewrite Ha, Hea; reflexivity).
      replace (child_attr x E ra self (f, v)) with (@nil attr) by (unfold child_attr; cbn [fst snd]; rewrite Ha; reflexivity). cbn [app].
      split; [reflexivity|]. split; [reflexivity|]. split.
      * intros [|j] g w Hj Hw Hga; cbn [nth_error] in *; [|apply (H3 j g w); assumption]. injection Hj as <-. injection Hw as <-. eauto.
      * intros [|j] g w id Hj Hw Hg Hty; cbn [nth_error] in *; [|apply (H4 j g w); assumption]. injection Hj as <-.
        unfold flat_field in Hg. rewrite Ha in Hg. discriminate.
    + replace (own_attr x E ra self (f, v)) with (@nil attr) by (unfold own_attr; cbn [fst snd]; rewrite Ha; reflexivity).
      replace (child_attr x E ra self (f, v)) with (match ya_flatten (f_attrs f), f_ty f with
        | true, TBase (BUser id) => match encode_attrs x E id v with Some (a, _) => a | None => [] end
        | _, _ => [] end) by (unfold child_attr, written_attrs; cbn [fst snd]; rewrite Ha; reflexivity). cbn [app].
      assert (H3' : forall j g w, nth_error (f :: fs) j = Some g -> nth_error (v :: vs) j = Some w -> ya_attribute (f_attrs g) = true ->
        exists a, enc_attr x (encode x E) ra self g w = Some a).
      { intros [|j] g w Hj Hw Hga; cbn [nth_error] in *; [|apply (H3 j g w); assumption]. congruence. }
      assert (Hplain : Some (concat (map (own_attr x E ra self) (combine fs vs)), concat (map (child_attr x E ra self) (combine fs vs)), ns') = Some (own, child, ns) ->
        (forall id, flat_field f = true -> f_ty f = TBase (BUser id) -> False) ->
        own = concat (map (own_attr x E ra self) (combine fs vs)) /\ child = concat (map (child_attr x E ra self) (combine fs vs)) /\
        (forall j g w, nth_error (f :: fs) j = Some g -> nth_error (v :: vs) j = Some w -> ya_attribute (f_attrs g) = true ->
          exists a, enc_attr x (encode x E) ra self g w = Some a) /\
        (forall j g w id, nth_error (f :: fs) j = Some g -> nth_error (v :: vs) j = Some w -> flat_field g = true -> f_ty g = TBase (BUser id) ->
          exists a m, encode_attrs x E id w = Some (a, m) /\ forall q u, In (q, u) m -> exists u', In (q, u') ns)).
      { intros He Hno. injection He as <- <- <-. split; [reflexivity|]. split; [reflexivity|]. split; [exact H3'|].
        intros [|j] g w id Hj Hw Hg Hty; cbn [nth_error] in *; [|apply (H4 j g w); assumption]. injection Hj as <-. destruct (Hno id Hg Hty). }
      destruct (ya_flatten (f_attrs f)) eqn:Hfl.
      * destruct (f_ty f) as [[s|id]|b|b|b] eqn:Hty; try (apply Hplain; [exact H|intros; discriminate]).
        apply omap_some in H. destruct H as ([a m] & Hea & H). injection H as -> -> ->. rewrite Hea. cbn [app].
        split; [reflexivity|]. split; [reflexivity|]. split; [exact H3'|].
        intros [|j] g w id' Hj Hw Hg Hty'; cbn [nth_error] in *.
        -- injection Hj as <-. injection Hw as <-. rewrite Hty in Hty'. injection Hty' as <-. exists a, m. split; [exact Hea|].
           intros q u Hin. exists u. apply ns_extend_keeps. exact Hin.
        -- destruct (H4 j g w id' Hj Hw Hg Hty') as (a' & m' & G1 & G2). exists a', m'. split; [exact G1|]. intros q u Hin.
           destruct (G2 q u Hin) as [u' Hu']. apply (ns_extend_has ns' m q u' Hu').
      * apply Hplain; [exact H|]. intros id Hx. unfold flat_field in Hx. rewrite Hfl, andb_false_r in Hx. discriminate.
Qed.

Lemma combine_nth' : forall A B (l : list A) (l' : list B) j q, nth_error (combine l l') j = Some q ->
  nth_error l j = Some (fst q) /\ nth_error l' j = Some (snd q).
Proof.
  induction l as [|a l IH]; intros [|b l'] [|j] q H; try discriminate; cbn [combine nth_error] in *; [injection H as <-; auto|apply IH; exact H].
Qed.
Lemma nth_combine : forall A B (l : list A) (l' : list B) j a b, nth_error l j = Some a -> nth_error l' j = Some b ->
  nth_error (combine l l') j = Some (a, b).
Proof.
  induction l as [|a l IH]; intros [|b l'] [|j] c d H1 H2; try discriminate; cbn [combine nth_error] in *; [congruence|apply IH; assumption].
Qed.

(** The attributes of the start tag, field by field. *)
Section TagAttrs.
  Variable x : ext.
  Variable E : env.
  Variable ra : yattr.
  Variable self : value.
  Variable fs : list field.
  Variable vs : list value.
  Variable b : bool.
  Variable A : list attr.
  Notation W := (written_attrs x E b ra self).
  Hypothesis Hlen : List.length vs = List.length fs.
  Hypothesis HA : if b then A = [] else A = concat (map (own_attr x E ra self) (combine fs vs)) ++ concat (map (child_attr x E ra self) (combine fs vs)).

  Lemma tag_in : forall c, In c A -> exists j f v, nth_error fs j = Some f /\ nth_error vs j = Some v /\ In c (W f v).
  Proof.
    destruct b; [subst A; intros ? []|]. subst A.
    intros c Hc. apply in_app_or in Hc. destruct Hc as [Hc|Hc]; apply in_concat in Hc; destruct Hc as (l & Hl & Hc); apply in_map_iff in Hl;
      destruct Hl as (q & <- & Hq); apply In_nth_error in Hq; destruct Hq as [j Hj]; apply combine_nth' in Hj; destruct Hj as [Hj1 Hj2];
      exists j, (fst q), (snd q); split; [exact Hj1|split; [exact Hj2|]| |]; [|exact Hj1|split; [exact Hj2|]].
    - unfold own_attr in Hc. destruct (ya_attribute _); [exact Hc|destruct Hc].
    - unfold child_attr in Hc. destruct (ya_attribute _); [destruct Hc|exact Hc].
  Qed.
  Lemma tag_values : forall j f v l, nth_error fs j = Some f -> nth_error vs j = Some v ->
    (forall j' f' v' c, j' <> j -> nth_error fs j' = Some f' -> nth_error vs j' = Some v' -> In c (W f' v') -> n_local (at_name c) <> l) ->
    values_of l A = values_of l (W f v).
  Proof.
    intros j f v l Hf Hv Ho. destruct b; [subst A; unfold written_attrs; reflexivity|]. rewrite HA, values_app.
    pose proof (nth_combine _ _ _ _ j f v Hf Hv) as Hc.
    rewrite (values_pick l _ j (own_attr x E ra self (f, v))), (values_pick l (map (child_attr x E ra self) _) j (child_attr x E ra self (f, v))).
    - unfold own_attr, child_attr. cbn [fst snd]. destruct (ya_attribute (f_attrs f)); [apply app_nil_r|reflexivity].
    - rewrite nth_error_map, Hc. reflexivity.
    - intros j' l' c Hj Hl Hin. rewrite nth_error_map in Hl. destruct (nth_error (combine fs vs) j') as [q|] eqn:Hq; [|discriminate].
      apply combine_nth' in Hq. injection Hl as <-. unfold child_attr in Hin. destruct (ya_attribute _); [destruct Hin|].
      apply (Ho j' _ _ c Hj (proj1 Hq) (proj2 Hq) Hin).
    - rewrite nth_error_map, Hc. reflexivity.
    - intros j' l' c Hj Hl Hin. rewrite nth_error_map in Hl. destruct (nth_error (combine fs vs) j') as [q|] eqn:Hq; [|discriminate].
      apply combine_nth' in Hq. injection Hl as <-. unfold own_attr in Hin. destruct (ya_attribute _); [|destruct Hin].
      apply (Ho j' _ _ c Hj (proj1 Hq) (proj2 Hq) Hin).
  Qed.
  Lemma tag_nodup : (forall j f v, nth_error fs j = Some f -> nth_error vs j = Some v -> NoDup (map (fun a => n_local (at_name a)) (W f v))) ->
    (forall i j f g v w c d, i <> j -> nth_error fs i = Some f -> nth_error vs i = Some v -> nth_error fs j = Some g -> nth_error vs j = Some w ->
       In c (W f v) -> In d (W g w) -> n_local (at_name c) <> n_local (at_name d)) ->
    NoDup (map (fun a => n_local (at_name a)) A).
  Proof.
    intros H1 H2. destruct b; [subst A; constructor|]. rewrite HA, <- List.concat_app.
    set (n := List.length (combine fs vs)).
    assert (Hlo : List.length (map (own_attr x E ra self) (combine fs vs)) = n) by apply map_length.
    assert (Hpos : forall j l c, nth_error (map (own_attr x E ra self) (combine fs vs) ++ map (child_attr x E ra self) (combine fs vs)) j = Some l -> In c l ->
      exists f v, nth_error fs (if Nat.ltb j n then j else j - n) = Some f /\ nth_error vs (if Nat.ltb j n then j else j - n) = Some v /\ l = written_attrs x E false ra self f v /\
        ya_attribute (f_attrs f) = Nat.ltb j n).
    { intros j l c Hj Hc. destruct (Nat.ltb_spec j n) as [Hlt|Hge].
      - rewrite nth_error_app1 in Hj by lia. rewrite nth_error_map in Hj. destruct (nth_error (combine fs vs) j) as [q|] eqn:Hq; [|discriminate].
        apply combine_nth' in Hq. injection Hj as <-. exists (fst q), (snd q). split; [apply Hq|]. split; [apply Hq|].
        unfold own_attr in Hc |- *. destruct (ya_attribute (f_attrs (fst q))); [split; reflexivity|destruct Hc].
      - rewrite nth_error_app2 in Hj by lia. rewrite Hlo, nth_error_map in Hj. destruct (nth_error (combine fs vs) (j - n)) as [q|] eqn:Hq; [|discriminate].
        apply combine_nth' in Hq. injection Hj as <-. exists (fst q), (snd q). split; [apply Hq|]. split; [apply Hq|].
        unfold child_attr in Hc |- *. destruct (ya_attribute (f_attrs (fst q))); [destruct Hc|split; reflexivity]. }
    apply nodup_concat.
    - intros j l Hj. destruct l as [|c l]; [constructor|]. destruct (Hpos j _ c Hj (or_introl eq_refl)) as (f & v & A1 & A2 & A3 & _).
      rewrite A3. apply (H1 _ f v A1 A2).
    - intros i j a d c e Hij Hi Hj Hc He. destruct (Hpos i a c Hi Hc) as (f & v & A1 & A2 & A3 & A4). destruct (Hpos j d e Hj He) as (g & w & C1 & C2 & C3 & C4).
      subst a d.
      assert (Hne : (if Nat.ltb i n then i else i - n) <> (if Nat.ltb j n then j else j - n)).
      { intros Hx. rewrite Hx in A1. assert (f = g) by congruence. subst g.
        destruct (Nat.ltb_spec i n), (Nat.ltb_spec j n); try congruence; lia. }
      apply (H2 _ _ f g v w c e Hne A1 A2 C1 C2 Hc He).
  Qed.
End TagAttrs.
