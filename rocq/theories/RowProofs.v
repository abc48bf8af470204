(** * The value of a struct element, field by field. *)
From Verif Require Import Str Num Xml XmlText Reader Schema De RunFacts SpecTree TreeFacts TreeProofs
  SpecText TextProofs SpecValue ValueProofs SpecStruct StructProofs StructReads SpecSpread.
Open Scope list_scope.

(** ** Collecting *)
Definition strip (o : outcome (list (nat * value))) : outcome (list value) := obind o (fun c => OOk (map snd c)).

Lemma strip_ok : forall o l, strip o = OOk l -> exists c, o = OOk c /\ l = map snd c.
Proof. intros [c| | |] l H; try discriminate. inversion H; subst. eauto. Qed.

Lemma collect_strip : forall A (g : A -> outcome (list (nat * value))) h l, (forall a, strip (g a) = h a) -> strip (ocollect g l) = ocollect h l.
Proof.
  intros A g h l H. induction l as [|a l IH]; [reflexivity|]. rewrite !ocollect_cons, <- H, <- IH.
  destruct (g a) as [u| | |]; try reflexivity. cbn [obind strip]. destruct (ocollect g l) as [w| | |]; try reflexivity.
  cbn [obind strip]. rewrite map_app. reflexivity.
Qed.

Lemma collect_some : forall A B (g : A -> outcome (list B)) l, (forall a, In a l -> exists u, g a = OOk u) -> exists c, ocollect g l = OOk c.
Proof.
  intros A B g l. induction l as [|a l IH]; intros H; [eexists; reflexivity|].
  destruct (H a (or_introl eq_refl)) as [u Hu]. destruct (IH (fun b Hb => H b (or_intror Hb))) as [w Hw].
  rewrite ocollect_cons, Hu. cbn [obind]. rewrite Hw. eexists; reflexivity.
Qed.

Lemma collect_at : forall A B (g : A -> outcome (list B)) l r, ocollect g l = OOk r -> forall a, In a l -> exists u, g a = OOk u.
Proof.
  intros A B g l. induction l as [|b l IH]; intros r H a Hin; [destruct Hin|]. rewrite ocollect_cons in H.
  apply obind_ok in H. destruct H as (u & Hu & H). apply obind_ok in H. destruct H as (w & Hw & _).
  destruct Hin as [<-|Hin]; eauto.
Qed.

Lemma given_same : forall i l, (forall p, In p l -> fst p = i) -> given i l = map snd l.
Proof.
  intros i l H. unfold given. f_equal. induction l as [|p l IH]; [reflexivity|]. cbn [filter].
  rewrite (H p (or_introl eq_refl)), Nat.eqb_refl. f_equal. apply IH. intros q Hq. apply H. right; exact Hq.
Qed.

Lemma numbered_ok : forall (g : nat * field -> outcome (list (nat * value))),
  (forall p u q, g p = OOk u -> In q u -> fst q = fst p) ->
  forall fs c, ocollect g (numbered fs) = OOk c -> forall i f, nth_error fs i = Some f -> strip (g (i, f)) = OOk (given i c).
Proof.
  intros g Hg fs. unfold numbered.
  assert (H : forall l j c, ocollect g (combine (seq j (List.length l)) l) = OOk c ->
    forall i f, nth_error l i = Some f -> strip (g (j + i, f)) = OOk (given (j + i) c)).
  { induction l as [|h l IH]; intros j c Hc i f Hi; [destruct i; discriminate|]. rewrite combine_seq_cons, ocollect_cons in Hc.
    apply obind_ok in Hc. destruct Hc as (u & Hu & Hc). apply obind_ok in Hc. destruct Hc as (w & Hw & Hc). inversion Hc; subst c.
    rewrite given_app. destruct i as [|i]; cbn [nth_error] in Hi.
    - inversion Hi; subst h. rewrite Nat.add_0_r. rewrite Hu. cbn [strip obind]. rewrite (given_same j u) by (intros p Hp; apply (Hg _ _ _ Hu Hp)).
      rewrite (given_none j w); [rewrite app_nil_r; reflexivity|]. intros p Hp Hj.
      destruct (ocollect_in _ _ _ _ _ _ Hw Hp) as ([q h'] & u' & Hq & Hu' & Hp'). rewrite (Hg _ _ _ Hu' Hp') in Hj. cbn [fst] in Hj.
      apply in_combine_l in Hq. apply in_seq in Hq. lia.
    - rewrite <- Nat.add_succ_comm. rewrite (IH (S j) w Hw i f Hi). rewrite (given_none (S j + i) u); [reflexivity|].
      intros p Hp. rewrite (Hg _ _ _ Hu Hp). cbn [fst]. lia. }
  intros c Hc i f Hi. apply (H fs 0 c Hc i f Hi).
Qed.

Lemma numbered_some : forall B (g : nat * field -> outcome (list B)) fs,
  (forall i f, nth_error fs i = Some f -> exists u, g (i, f) = OOk u) -> exists c, ocollect g (numbered fs) = OOk c.
Proof. intros B g fs H. apply collect_some. intros [i f] Hin. apply numbered_in in Hin. apply H, Hin. Qed.

(** ** Labels *)
Definition elem_fieldb (f : field) : bool := (negb (ya_attribute (f_attrs f)) && negb (ya_flatten (f_attrs f)))%bool.
Definition text_fieldb (f : field) : bool :=
  (ya_text (f_attrs f) && match f_ty f with TBase (BSimple SString) | TOpt (BSimple SString) => true | _ => false end)%bool.

Lemma elem_fieldb_iff : forall f, elem_fieldb f = true <-> elem_field f.
Proof. intros f. unfold elem_fieldb, elem_field. rewrite andb_true_iff, !negb_true_iff. tauto. Qed.

Lemma element_labels_in : forall ra fs f, In f fs -> elem_fieldb f = true -> In (flabel ra f) (element_labels ra fs).
Proof. intros ra fs f Hf He. unfold element_labels. apply in_map_iff. exists f. split; [reflexivity|]. apply filter_In. split; assumption. Qed.

Lemma labels_cons : forall ra f fs, element_labels ra (f :: fs) = (if elem_fieldb f then [flabel ra f] else []) ++ element_labels ra fs.
Proof. intros ra f fs. unfold element_labels. cbn [filter]. unfold elem_fieldb. destruct (_ && _)%bool; reflexivity. Qed.

Lemma labels_inj : forall ra fs, NoDup (element_labels ra fs) -> forall i j f g, nth_error fs i = Some f -> nth_error fs j = Some g ->
  elem_fieldb f = true -> elem_fieldb g = true -> flabel ra f = flabel ra g -> i = j.
Proof.
  intros ra. induction fs as [|h fs IH]; intros Hn i j f g Hi Hj Hf Hg Hl; [destruct i; discriminate|].
  rewrite labels_cons in Hn.
  assert (Hn' : NoDup (element_labels ra fs)) by (destruct (elem_fieldb h); [inversion Hn; assumption|exact Hn]).
  destruct i as [|i], j as [|j]; cbn [nth_error] in Hi, Hj.
  - reflexivity.
  - inversion Hi; subst h. rewrite Hf in Hn. inversion Hn as [|? ? Hni _]; subst. exfalso. apply Hni. rewrite Hl.
    apply element_labels_in; [eapply nth_error_In; eassumption|exact Hg].
  - inversion Hj; subst h. rewrite Hg in Hn. inversion Hn as [|? ? Hni _]; subst. exfalso. apply Hni. rewrite <- Hl.
    apply element_labels_in; [eapply nth_error_In; eassumption|exact Hf].
  - f_equal. eapply IH; eassumption.
Qed.

Lemma field_for_at : forall ra fs i f n, NoDup (element_labels ra fs) -> nth_error fs i = Some f -> elem_fieldb f = true ->
  elabel n = flabel ra f -> field_for ra fs n = Some (i, f).
Proof.
  intros ra fs i f n Hn Hi Hf Hl. apply field_for_first; [|exact Hl]. split; [exact Hi|]. split; [apply elem_fieldb_iff; exact Hf|].
  intros j g Hj Hg Hge He. apply elem_fieldb_iff in Hge. pose proof (labels_inj ra fs Hn j i g f Hg Hi Hge Hf He). lia.
Qed.

Lemma forall2_nth : forall A B (R : A -> B -> Prop) l l', List.length l' = List.length l ->
  (forall i a, nth_error l i = Some a -> exists b, nth_error l' i = Some b /\ R a b) -> Forall2 R l l'.
Proof.
  intros A B R. induction l as [|a l IH]; intros [|b l'] Hl H; try discriminate; constructor.
  - destruct (H 0 a eq_refl) as (b' & Hb & Hr). inversion Hb; subst. exact Hr.
  - apply IH; [inversion Hl; reflexivity|]. intros i c Hi. apply (H (S i) c Hi).
Qed.

Lemma field_result_name : forall x tn tn' f l v, field_result x tn f l = Ok v -> field_result x tn' f l = Ok v.
Proof.
  intros x tn tn' f l v. unfold field_result. destruct (f_ty f); auto. destruct (last_of l); auto.
  destruct (ya_default (f_attrs f)); auto. discriminate.
Qed.

Section Rows.
  Variable x : ext.
  Variable E : env.
  Variable av : nat -> string -> outcome value.
  Variable fv : nat -> node -> outcome value.

  (** What an attribute, a child and the rest of the element give to a field. *)
  Definition attr1 (f : field) (a : attr) : outcome (list value) :=
    if String.eqb (n_local (at_name a)) (snd (flabel ya0 f)) then
      match f_ty f with
      | TVec b => ocollect (fun s => obind (attr_item x av b s) (fun v => OOk [v])) (split_ws (at_value a))
      | t => obind (attr_item x av (base_of t) (at_value a)) (fun v => OOk [v])
      end
    else OOk [].
  Definition attrs1 (f : field) (a : list attr) : outcome (list value) :=
    if ya_attribute (f_attrs f) then ocollect (attr1 f) a else OOk [].

  Definition simple1 (s : simple) (kids : list node) : list value :=
    match kids with
    | [Txt t] => match visit_simple x s t with Ok v => [v] | Er _ => [] end
    | _ => []
    end.
  Definition kid1 (sub : nat -> node -> outcome value) (ra : yattr) (f : field) (k : node) : outcome (list value) :=
    match k with
    | Txt t => OOk (if text_fieldb f then [VStr t] else [])
    | Elem n _ _ kids =>
        if (elem_fieldb f && label_eqb (flabel ra f) (elabel n))%bool then
          match base_of (f_ty f) with
          | BUser id => obind (sub id k) (fun v => OOk [v])
          | BSimple s => OOk (simple1 s kids)
          end
        else OOk []
    end.
  Definition flat1 (rest : node) (f : field) : outcome (list value) :=
    if flat_field f then
      match f_ty f with
      | TBase (BUser id) => obind (fv id rest) (fun v => OOk [v])
      | TOpt (BUser id) => match fv id rest with OErr _ => OOk [] | o => obind o (fun v => OOk [v]) end
      | _ => OPanic "flatten is not implemented"
      end
    else OOk [].

  Lemma attr1_strip : forall i f a, strip (attr_given x av i f a) = attr1 f a.
  Proof.
    intros i f a. unfold attr_given, attr1. destruct (String.eqb _ _); [|reflexivity].
    assert (Hone : forall (o : outcome value), strip (obind o (fun v => OOk [(i, v)])) = obind o (fun v => OOk [v])) by (intros []; reflexivity).
    destruct (f_ty f); try apply Hone. apply collect_strip. intros s. apply Hone.
  Qed.
  Lemma flat1_strip : forall rest i f, strip (flat_given fv rest (i, f)) = flat1 rest f.
  Proof.
    intros rest i f. unfold flat_given, flat1, flat_field. destruct (_ && _)%bool; [|reflexivity].
    destruct (f_ty f) as [[]|[]| |]; try reflexivity; destruct (fv _ _); reflexivity.
  Qed.

  Lemma attrs_rows : forall fs a ca i f, attrs_given x av fs a = OOk ca -> nth_error fs i = Some f -> attrs1 f a = OOk (given i ca).
  Proof.
    intros fs a ca i f Hca Hi. unfold attrs_given in Hca.
    pose proof (fun H => numbered_ok _ H fs ca Hca i f Hi) as Hn. cbn [fst snd] in Hn. unfold attrs1. rewrite <- Hn.
    - destruct (ya_attribute (f_attrs f)); [|reflexivity]. symmetry. apply collect_strip. intros b. apply attr1_strip.
    - intros [j g] u q Hu Hq. cbn [fst snd] in *. destruct (ya_attribute (f_attrs g)); [|inversion Hu; subst; destruct Hq].
      destruct (ocollect_in _ _ _ _ _ _ Hu Hq) as (b & u' & _ & Hu' & Hq'). apply (attr_given_index _ _ _ _ _ _ _ Hu' Hq').
  Qed.
  Lemma attrs_some : forall fs a, (forall f, In f fs -> exists l, attrs1 f a = OOk l) -> exists ca, attrs_given x av fs a = OOk ca.
  Proof.
    intros fs a H. unfold attrs_given. apply numbered_some. intros i f Hi. cbn [fst snd].
    destruct (H f (nth_error_In _ _ Hi)) as [l Hl]. unfold attrs1 in Hl. destruct (ya_attribute (f_attrs f)); [|eexists; reflexivity].
    rewrite <- (collect_strip _ (attr_given x av i f) (attr1 f)) in Hl by (intros b; apply attr1_strip). apply strip_ok in Hl. destruct Hl as (c & Hc & _). eauto.
  Qed.

  Lemma flat_rows : forall rest fs cf i f, ocollect (flat_given fv rest) (numbered fs) = OOk cf -> nth_error fs i = Some f ->
    flat1 rest f = OOk (given i cf).
  Proof.
    intros rest fs cf i f Hcf Hi. rewrite <- (flat1_strip rest i f). apply (numbered_ok _) with (fs := fs); [|exact Hcf|exact Hi].
    intros [j g] u q Hu Hq. unfold flat_given in Hu. cbn [fst]. destruct (_ && _)%bool; [|inversion Hu; subst; destruct Hq].
    destruct (f_ty g) as [[]|[]| |]; try discriminate Hu; destruct (fv _ _); try discriminate Hu; inversion Hu; subst; try (destruct Hq; fail); destruct Hq as [<-|[]]; reflexivity.
  Qed.
  Lemma flat_some : forall rest fs, (forall f, In f fs -> exists l, flat1 rest f = OOk l) -> exists cf, ocollect (flat_given fv rest) (numbered fs) = OOk cf.
  Proof.
    intros rest fs H. apply numbered_some. intros i f Hi. destruct (H f (nth_error_In _ _ Hi)) as [l Hl].
    rewrite <- (flat1_strip rest i f) in Hl. apply strip_ok in Hl. destruct Hl as (c & Hc & _). eauto.
  Qed.

  Lemma simple1_given : forall i s ks, map snd (simple_given x i s ks) = simple1 s ks /\ forall p, In p (simple_given x i s ks) -> fst p = i.
  Proof.
    intros i s ks. unfold simple_given, simple1. destruct ks as [|[|t] [|? ?]]; try (split; [reflexivity|intros p []]).
    destruct (visit_simple x s t); (split; [reflexivity|]); intros p; [intros [<-|[]]; reflexivity|intros []].
  Qed.

  Lemma kid_row : forall sub ra fs k u i f, NoDup (element_labels ra fs) -> kid_given x sub ra fs k = OOk u -> nth_error fs i = Some f ->
    kid1 sub ra f k = OOk (given i u).
  Proof.
    intros sub ra fs k u i f Hn Hu Hi. destruct k as [n a m ks|t]; cbn [kid_given kid1] in *.
    - destruct (field_for ra fs n) as [[j g]|] eqn:Hff.
      + pose proof (field_for_spec _ _ _ _ _ Hff) as (Hj & Ha & Hf & Hl).
        assert (Hge : elem_fieldb g = true) by (apply elem_fieldb_iff; split; assumption).
        destruct (elem_fieldb f && label_eqb (flabel ra f) (elabel n))%bool eqn:Hm.
        * apply andb_true_iff in Hm. destruct Hm as [Hfe Hfl]. apply label_eqb_eq in Hfl.
          assert (i = j) by (apply (labels_inj ra fs Hn i j f g); auto; congruence). subst j. assert (g = f) by congruence. subst g.
          destruct (base_of (f_ty f)) as [s|id].
          -- inversion Hu; subst u. destruct (simple1_given i s ks) as [H1 H2]. rewrite (given_same i _ H2), H1. reflexivity.
          -- apply obind_ok in Hu. destruct Hu as (v & Hv & Hu). inversion Hu; subst u. rewrite Hv. cbn [obind]. rewrite given_one, Nat.eqb_refl. reflexivity.
        * assert (Hij : j <> i).
          { intros ->. assert (g = f) by congruence. subst g. rewrite Hge in Hm. cbn [andb] in Hm. apply label_eqb_eq in Hl. congruence. }
          rewrite given_none; [reflexivity|]. intros p Hp. destruct (base_of (f_ty g)) as [s|id].
          -- inversion Hu; subst u. destruct (simple1_given j s ks) as [_ H2]. rewrite (H2 p Hp). exact Hij.
          -- apply obind_ok in Hu. destruct Hu as (v & Hv & Hu). inversion Hu; subst u. destruct Hp as [<-|[]]. exact Hij.
      + inversion Hu; subst u. destruct (elem_fieldb f && label_eqb (flabel ra f) (elabel n))%bool eqn:Hm; [|reflexivity].
        apply andb_true_iff in Hm. destruct Hm as [Hfe Hfl]. apply label_eqb_eq in Hfl.
        rewrite (field_for_at ra fs i f n Hn Hi Hfe) in Hff by congruence. discriminate Hff.
    - inversion Hu; subst u. f_equal. destruct (text_fieldb f) eqn:Ht.
      + unfold text_fieldb in Ht. apply andb_true_iff in Ht. destruct Ht as [Ht Hty]. symmetry. eapply given_text; [exact Hi|exact Ht|].
        destruct (f_ty f) as [[[]|]|[[]|]| |]; try discriminate Hty; auto.
      + symmetry. apply given_none. intros p Hp. apply in_map_iff in Hp. destruct Hp as (j & <- & Hj). cbn [fst]. intros ->.
        unfold text_fields in Hj. apply in_map_iff in Hj. destruct Hj as ([j g] & Hji & Hj). cbn in Hji. subst j. apply filter_In in Hj.
        destruct Hj as [Hj1 Hj2]. apply numbered_in in Hj1. assert (g = f) by congruence. subst g. cbn [snd] in Hj2. unfold text_fieldb in Ht. congruence.
  Qed.

  Lemma kids_rows : forall sub ra fs ks ck i f, NoDup (element_labels ra fs) -> ocollect (kid_given x sub ra fs) ks = OOk ck -> nth_error fs i = Some f ->
    ocollect (kid1 sub ra f) ks = OOk (given i ck).
  Proof.
    intros sub ra fs ks ck i f Hn. revert ck. induction ks as [|k ks IH]; intros ck Hck Hi; [inversion Hck; reflexivity|].
    rewrite ocollect_cons in *. apply obind_ok in Hck. destruct Hck as (u & Hu & Hck). apply obind_ok in Hck. destruct Hck as (w & Hw & Hck).
    inversion Hck; subst ck. rewrite (kid_row sub ra fs k u i f Hn Hu Hi). cbn [obind]. rewrite (IH w Hw Hi). cbn [obind]. rewrite given_app. reflexivity.
  Qed.
  Lemma kids_some : forall sub ra fs ks, (forall f, In f fs -> exists l, ocollect (kid1 sub ra f) ks = OOk l) ->
    exists ck, ocollect (kid_given x sub ra fs) ks = OOk ck.
  Proof.
    intros sub ra fs ks H. apply collect_some. intros k Hk. destruct k as [n a m kk|t]; cbn [kid_given]; [|eexists; reflexivity].
    destruct (field_for ra fs n) as [[j g]|] eqn:Hff; [|eexists; reflexivity].
    pose proof (field_for_spec _ _ _ _ _ Hff) as (Hj & Ha & Hf & Hl). destruct (base_of (f_ty g)) as [s|id] eqn:Hb; [eexists; reflexivity|].
    destruct (H g (nth_error_In _ _ Hj)) as [l Hlk].
    destruct (collect_at _ _ _ _ _ Hlk _ Hk) as [u Hu]. cbn [kid1] in Hu.
    assert (Hge : elem_fieldb g = true) by (apply elem_fieldb_iff; split; assumption). apply label_eqb_eq in Hl.
    rewrite Hge, Hl, Hb in Hu. cbn [andb] in Hu. apply obind_ok in Hu. destruct Hu as (v & Hv & _). rewrite Hv. eexists; reflexivity.
  Qed.

  Lemma fields_some : forall tn fs i c vs, Forall2 (fun (p : nat * field) v => field_result x tn (snd p) (given (fst p) c) = Ok v)
      (combine (seq i (List.length fs)) fs) vs -> fields_result x tn i fs c = Ok vs.
  Proof.
    intros tn. induction fs as [|f fs IH]; intros i c vs H; [inversion H; reflexivity|].
    rewrite combine_seq_cons in H. inversion H as [|? v ? ws Hv Hws]; subst. cbn [fst snd] in Hv. cbn [fields_result].
    rewrite Hv, (IH (S i) c ws Hws). reflexivity.
  Qed.

  (** The values of one field. *)
  Definition Row (tn : string) (ra : yattr) (sub : nat -> node -> outcome value) (a : list attr) (ks : list node) (rest : node) (f : field) (v : value) : Prop :=
    exists la lk lf, attrs1 f a = OOk la /\ ocollect (kid1 sub ra f) ks = OOk lk /\ flat1 rest f = OOk lf /\
      field_result x tn f (la ++ lk ++ lf) = Ok v.

  Theorem decode_rows : forall top id td fs n a m ks v, struct_type E id td fs -> NoDup (element_labels (t_attrs td) fs) ->
    (decode x E av fv top id (Elem n a m ks) = OOk v <->
     (top = true -> bad_namespace (t_attrs td) n = None) /\
     exists vs, v = VRec vs /\
       Forall2 (Row (t_name td) (t_attrs td) (decode x E av fv false) a ks (rest_of (t_attrs td) fs n a m ks)) fs vs).
  Proof.
    intros top id td fs n a m ks v Hs Hn. split.
    - intros H. destruct (decode_struct_ok x E av fv _ _ _ _ _ _ _ _ _ Hs H) as (ca & ck & cf & vs & Hb & Hca & Hck & Hcf & Hvs & ->).
      split; [exact Hb|]. exists vs. split; [reflexivity|]. apply forall2_nth; [eapply fields_result_length; exact Hvs|].
      intros i f Hi. destruct (fields_result_nth _ _ _ _ _ _ _ _ Hvs Hi) as (w & Hw & Hr). exists w. split; [exact Hw|].
      exists (given i ca), (given i ck), (given i cf). split; [eapply attrs_rows; eassumption|]. split; [eapply kids_rows; eassumption|].
      split; [eapply flat_rows; eassumption|]. rewrite <- !given_app. exact Hr.
    - intros (Hb & vs & -> & Hr).
      assert (Hin : forall f, In f fs -> exists v, Row (t_name td) (t_attrs td) (decode x E av fv false) a ks (rest_of (t_attrs td) fs n a m ks) f v).
      { clear -Hr. revert Hr. generalize (Row (t_name td) (t_attrs td) (decode x E av fv false) a ks (rest_of (t_attrs td) fs n a m ks)). intros R Hr. induction Hr as [|f v gs ws H Hr IH]; intros g Hg; [destruct Hg|]. destruct Hg as [<-|Hg]; [eauto|auto]. }
      destruct (attrs_some fs a) as [ca Hca]; [intros f Hf; destruct (Hin f Hf) as (w & la & lk & lf & H1 & _); eauto|].
      destruct (kids_some (decode x E av fv false) (t_attrs td) fs ks) as [ck Hck]; [intros f Hf; destruct (Hin f Hf) as (w & la & lk & lf & _ & H1 & _); eauto|].
      destruct (flat_some (rest_of (t_attrs td) fs n a m ks) fs) as [cf Hcf]; [intros f Hf; destruct (Hin f Hf) as (w & la & lk & lf & _ & _ & H1 & _); eauto|].
      rewrite (decode_struct_intro x E av fv _ _ _ _ _ _ _ _ _ _ _ Hs Hb Hca Hck Hcf).
      rewrite (fields_some _ _ _ _ vs); [reflexivity|]. fold (numbered fs).
      assert (Hrow : forall i f w, nth_error fs i = Some f ->
        Row (t_name td) (t_attrs td) (decode x E av fv false) a ks (rest_of (t_attrs td) fs n a m ks) f w ->
        field_result x (t_name td) f (given i (ca ++ ck ++ cf)) = Ok w).
      { intros i f w Hi (la & lk & lf & H1 & H2 & H3 & H4). rewrite (attrs_rows fs a ca i f Hca Hi) in H1.
        rewrite (kids_rows _ _ fs ks ck i f Hn Hck Hi) in H2. rewrite (flat_rows _ fs cf i f Hcf Hi) in H3.
        inversion H1; inversion H2; inversion H3; subst. rewrite !given_app. exact H4. }
      unfold numbered. assert (Hoff : forall l ws j, Forall2 (Row (t_name td) (t_attrs td) (decode x E av fv false) a ks (rest_of (t_attrs td) fs n a m ks)) l ws ->
        (forall i f, nth_error l i = Some f -> nth_error fs (j + i) = Some f) ->
        Forall2 (fun (p : nat * field) v => field_result x (t_name td) (snd p) (given (fst p) (ca ++ ck ++ cf)) = Ok v) (combine (seq j (List.length l)) l) ws).
      { intros l ws j Hl. revert j. induction Hl as [|f w l ws Hw Hl IH]; intros j Hnth; [constructor|]. rewrite combine_seq_cons. constructor.
        - cbn [fst snd]. apply Hrow; [|exact Hw]. rewrite <- (Nat.add_0_r j). apply (Hnth 0). reflexivity.
        - apply IH. intros i g Hi. rewrite Nat.add_succ_comm. apply (Hnth (S i)). exact Hi. }
      apply Hoff; [exact Hr|]. intros i f Hi. exact Hi.
  Qed.
End Rows.
