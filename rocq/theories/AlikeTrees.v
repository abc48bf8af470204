(** * Trees that differ in prefixes, declarations and the order of attributes
      have the same value (C42). *)
From Verif Require Import Str Num Xml XmlText Reader Schema De RunFacts SpecTree TreeFacts TreeProofs
  SpecText TextProofs SpecValue ValueProofs SpecStruct StructProofs StructReads SpecRound RoundNames RoundCore SpecAlike InsertProofs.
Open Scope list_scope.

(** ** Bindings *)
Lemma above_get : forall m p, above p m -> ns_get m p = None.
Proof.
  induction m as [|[q v] m IH]; intros p H; [reflexivity|]. cbn [ns_get].
  destruct (String.eqb_spec q p) as [->|_].
  - specialize (H p v (or_introl eq_refl)). rewrite compare_refl in H. discriminate.
  - apply IH. intros a b Hin. apply (H a b). right; exact Hin.
Qed.

Lemma ns_put_get : forall m p u q, ns_sorted m ->
  ns_get (ns_put m p u) q =
  if String.eqb p q then (match ns_get m p with Some v => Some v | None => Some u end) else ns_get m q.
Proof.
  induction m as [|[a b] m IH]; intros p u q Hs; cbn [ns_put ns_get].
  - destruct (String.eqb_spec p q); reflexivity.
  - destruct Hs as [Ha Hs]. destruct (String.compare p a) eqn:Hc.
    + assert (a = p) as ->.
      { clear -Hc. symmetry. revert a Hc. induction p as [|c p IHp]; intros [|d a] H; cbn [String.compare] in H; try discriminate; [reflexivity|].
        destruct (Ascii.compare c d) eqn:Hcd; try discriminate. apply ascii_compare_eq in Hcd. subst. f_equal. apply IHp. exact H. }
      rewrite String.eqb_refl. cbn [ns_get]. destruct (String.eqb p q); reflexivity.
    + cbn [ns_get]. destruct (String.eqb_spec p q) as [->|Hpq]; [|reflexivity].
      destruct (String.eqb_spec a q) as [->|_]; [rewrite compare_refl in Hc; discriminate|].
      rewrite (above_get m q); [reflexivity|]. intros y z Hin. eapply compare_trans; [exact Hc|]. apply (Ha y z Hin).
    + cbn [ns_get]. destruct (String.eqb_spec a q) as [->|Haq].
      * destruct (String.eqb_spec p q) as [->|_]; [rewrite compare_refl in Hc; discriminate|reflexivity].
      * rewrite IH by exact Hs. destruct (String.eqb_spec p q) as [->|_]; [|reflexivity].
        destruct (String.eqb_spec a q); [congruence|reflexivity].
Qed.

Lemma extend_get : forall l m q, ns_sorted m -> ns_get (ns_extend m l) q =
  match ns_get m q with Some v => Some v | None => ns_get l q end.
Proof.
  unfold ns_extend. induction l as [|[a b] l IH]; intros m q Hs; cbn [fold_left ns_get fst snd].
  - destruct (ns_get m q); reflexivity.
  - rewrite IH by (apply ns_put_sorted; exact Hs). rewrite ns_put_get by exact Hs.
    destruct (String.eqb_spec a q) as [->|_]; [|reflexivity]. destruct (ns_get m q); reflexivity.
Qed.

Lemma squash_get_aux : forall st m q, ns_sorted m -> ns_get (fold_left ns_extend st m) q =
  match ns_get m q with Some v => Some v | None => nss_get st q end.
Proof.
  induction st as [|a st IH]; intros m q Hs; cbn [fold_left nss_get].
  - destruct (ns_get m q); reflexivity.
  - rewrite IH by (apply extend_sorted; exact Hs). rewrite extend_get by exact Hs. destruct (ns_get m q); reflexivity.
Qed.
Lemma squash_get : forall st q, ns_get (squash st) q = nss_get st q.
Proof. intros st q. unfold squash. rewrite squash_get_aux by exact I. reflexivity. Qed.
Lemma squash_sorted : forall st, ns_sorted (squash st).
Proof.
  intros st. unfold squash. assert (H : forall m, ns_sorted m -> ns_sorted (fold_left ns_extend st m)).
  { induction st as [|a st IH]; intros m Hm; [exact Hm|]. apply IH, extend_sorted, Hm. }
  apply H. exact I.
Qed.

(** Scopes that agree with each other. *)
Definition agreeing (st : nsstack) : Prop :=
  forall m p u, In m st -> ns_get m p = Some u -> nss_get st p = Some u.

Lemma has_get : forall st p u, agreeing st -> nss_has st p u = true <-> nss_get st p = Some u.
Proof.
  intros st p u Ha. unfold nss_has. rewrite existsb_exists. split.
  - intros (m & Hin & Hm). destruct (ns_get m p) as [v|] eqn:Hv; [|discriminate]. apply String.eqb_eq in Hm. subst. eapply Ha; eassumption.
  - intros H. clear Ha. induction st as [|m st IH]; [discriminate|]. cbn [nss_get] in H. destruct (ns_get m p) as [v|] eqn:Hv.
    + exists m. split; [left; reflexivity|]. rewrite Hv. injection H as ->. apply String.eqb_refl.
    + destruct (IH H) as (m' & Hin & Hm'). exists m'. split; [right; exact Hin|exact Hm'].
Qed.

Lemma sorted_nodup : forall m p u v, ns_sorted m -> In (p, u) m -> In (p, v) m -> u = v.
Proof. intros m p u v Hs H1 H2. apply sorted_get in H1; [|exact Hs]. apply sorted_get in H2; [|exact Hs]. congruence. Qed.

(** The bindings of an element written inside [st]. *)
Lemma declare_get : forall st o m, agreeing st -> ns_sorted m ->
  (forall p, nss_get st p = ns_get o p) ->
  (forall p u, ns_get o p = Some u -> ns_get m p = Some u) ->
  (forall p, nss_get (declare st m :: st) p = ns_get m p) /\ agreeing (declare st m :: st).
Proof.
  intros st o m Ha Hs Ho Hm.
  (* what is declared is bound in [m] *)
  assert (Hfold : forall l cur, ns_sorted cur -> (forall p u, ns_get cur p = Some u -> ns_get m p = Some u) ->
    (forall pu, In pu l -> ns_get m (fst pu) = Some (snd pu)) ->
    let cur' := fold_left (fun cur pu => if nss_has (cur :: st) (fst pu) (snd pu) then cur else ns_put cur (fst pu) (snd pu)) l cur in
    (forall p u, ns_get cur' p = Some u -> ns_get m p = Some u) /\
    (forall pu, In pu l -> nss_get (cur' :: st) (fst pu) = Some (snd pu)) /\
    (forall p u, nss_get (cur :: st) p = Some u -> nss_get (cur' :: st) p = Some u)).
  { induction l as [|[a b] l IH]; intros cur Hc Hin Hl; cbn [fold_left fst snd].
    - split; [exact Hin|]. split; [intros pu []|auto].
    - pose proof (Hl (a, b) (or_introl eq_refl)) as Hab. cbn [fst snd] in Hab.
      assert (Hag : agreeing (cur :: st)).
      { intros m' p u [<-|Hin'] Hg; cbn [nss_get]; [rewrite Hg; reflexivity|].
        pose proof (Ha m' p u Hin' Hg) as Hst. destruct (ns_get cur p) as [w|] eqn:Hw; [|exact Hst].
        rewrite Ho in Hst. apply Hm in Hst. rewrite (Hin p w Hw) in Hst. exact Hst. }
      destruct (nss_has (cur :: st) a b) eqn:Hh.
      + apply has_get in Hh; [|exact Hag].
        destruct (IH cur Hc Hin (fun pu H => Hl pu (or_intror H))) as (H1 & H2 & H3). split; [exact H1|]. split; [|exact H3].
        intros pu [<-|Hpu]; [|apply H2; exact Hpu]. cbn [fst snd]. apply H3. exact Hh.
      + assert (Hnew : nss_get (cur :: st) a = None).
        { destruct (nss_get (cur :: st) a) as [w|] eqn:Hw; [|reflexivity]. exfalso.
          assert (w = b). { cbn [nss_get] in Hw. destruct (ns_get cur a) as [z|] eqn:Hz; [injection Hw as ->; apply Hin in Hz; congruence|].
            rewrite Ho in Hw. apply Hm in Hw. congruence. }
          subst w. apply has_get in Hw; [|exact Hag]. congruence. }
        assert (Hca : ns_get cur a = None) by (cbn [nss_get] in Hnew; destruct (ns_get cur a); [discriminate|reflexivity]).
        destruct (IH (ns_put cur a b)) as (H1 & H2 & H3).
        * apply ns_put_sorted; exact Hc.
        * intros p u. rewrite ns_put_get by exact Hc. destruct (String.eqb_spec a p) as [->|_]; [|apply Hin]. rewrite Hca. congruence.
        * intros pu Hpu. apply Hl. right; exact Hpu.
        * assert (Hstep : forall p u, nss_get (cur :: st) p = Some u -> nss_get (ns_put cur a b :: st) p = Some u).
          { intros p u Hpu. cbn [nss_get] in *. rewrite ns_put_get by exact Hc.
            destruct (String.eqb_spec a p) as [->|_]; [|exact Hpu]. rewrite Hca in Hpu, Hnew. congruence. }
          split; [exact H1|]. split.
          -- intros pu [<-|Hpu]; [|apply H2; exact Hpu]. cbn [fst snd]. apply H3. cbn [nss_get]. rewrite ns_put_get by exact Hc.
             rewrite String.eqb_refl, Hca. reflexivity.
          -- intros p u Hpu. apply H3, Hstep, Hpu. }
  destruct (Hfold m []) as (H1 & H2 & H3).
  - exact I.
  - discriminate.
  - intros [p u] Hin. apply sorted_get; assumption.
  - fold (declare st m) in *.
    assert (Hget : forall p, nss_get (declare st m :: st) p = ns_get m p).
    { intros p. destruct (ns_get m p) as [u|] eqn:Hu.
      - apply (H2 (p, u)). apply RoundNames.ns_get_in. exact Hu.
      - cbn [nss_get]. destruct (ns_get (declare st m) p) as [w|] eqn:Hw; [apply H1 in Hw; congruence|].
        rewrite Ho. destruct (ns_get o p) as [w|] eqn:Hop; [apply Hm in Hop; congruence|reflexivity]. }
    split; [exact Hget|]. intros m' p u [<-|Hin] Hg; rewrite Hget; [apply H1; exact Hg|].
    apply Hm. rewrite <- Ho. eapply Ha; eassumption.
Qed.

(** ** Trees as parsers deliver them *)
Inductive Resolved : node -> Prop :=
| resolved_txt : forall s, Resolved (Txt s)
| resolved_elem : forall n a m ks, ns_sorted m -> n_ns n = n_ns (rname [m] n) ->
    (forall k, In k ks -> Resolved k) -> Resolved (Elem n a m ks).

Inductive AlikeTree : node -> node -> Prop :=
| alike_txt : forall s, AlikeTree (Txt s) (Txt s)
| alike_elem : forall n a m ks n' a' m' ks', same_expanded n n' -> (forall l, values_of l a = values_of l a') ->
    Forall2 AlikeTree ks ks' -> AlikeTree (Elem n a m ks) (Elem n' a' m' ks').

Lemma rname_get : forall st st' n, (forall p, nss_get st p = nss_get st' p) -> rname st n = rname st' n.
Proof. intros st st' n H. unfold rname, lookup_prefix. destruct (n_prefix n); rewrite H; reflexivity. Qed.
Lemma rname_rname : forall st n, n_ns (rname st (rname st n)) = n_ns (rname st n).
Proof. intros st n. unfold rname. destruct (n_prefix n); reflexivity. Qed.
Lemma one_get : forall m p, nss_get [m] p = ns_get m p.
Proof. intros m p. cbn [nss_get]. destruct (ns_get m p); reflexivity. Qed.

Lemma values_rattr : forall st l a, values_of l (map (rattr st) a) = map untab (values_of l a).
Proof.
  intros st l a. unfold values_of. induction a as [|b a IH]; [reflexivity|]. cbn [map filter]. rewrite local_rattr.
  destruct (String.eqb _ l); cbn [map]; rewrite IH; reflexivity.
Qed.

(** Reading back keeps trees alike. *)
Lemma reread_kid_in : forall st l buf k, In k (reread_kids st l buf) ->
  (exists s, k = Txt s) \/ exists w, In w l /\ is_elem w /\ k = reread st w.
Proof.
  intros st. induction l as [|w l IH]; intros buf k H; cbn [reread_kids] in H.
  - unfold text_node in H. destruct (str_nonws buf); [|destruct H]. destruct H as [<-|[]]. left; eauto.
  - destruct w as [n a m ks|s|s].
    + apply in_app_or in H. destruct H as [H|[<-|H]].
      * unfold text_node in H. destruct (str_nonws buf); [|destruct H]. destruct H as [<-|[]]. left; eauto.
      * right. exists (WElem n a m ks). split; [left; reflexivity|]. split; [exact I|reflexivity].
      * destruct (IH _ _ H) as [Hs|(w & Hw & Hr)]; [left; exact Hs|right; exists w; split; [right; exact Hw|exact Hr]].
    + destruct (IH _ _ H) as [Hs|(w & Hw & Hr)]; [left; exact Hs|right; exists w; split; [right; exact Hw|exact Hr]].
    + destruct (IH _ _ H) as [Hs|(w & Hw & Hr)]; [left; exact Hs|right; exists w; split; [right; exact Hw|exact Hr]].
Qed.

Lemma reread_fine : forall t st o, agreeing st -> (forall p, nss_get st p = ns_get o p) -> Steady o t -> Resolved t ->
  Resolved (reread st (wn t)) /\ Steady (squash st) (reread st (wn t)).
Proof.
  induction t as [s|n a m ks IH] using node_ind'; intros st o Ha Ho Hst Hr; [split; constructor|].
  inversion Hst as [|? ? ? ? ? Hext Hks]; subst. inversion Hr as [|? ? ? ? Hm Hn Hrk]; subst.
  destruct (declare_get st o m Ha Hm Ho Hext) as [Hg Hag]. cbn [wn]. rewrite reread_elem.
  assert (Hk : forall k, In k (reread_kids (declare st m :: st) (map wn ks) "") ->
    Resolved k /\ Steady (squash (declare st m :: st)) k).
  { intros k Hin. apply reread_kid_in in Hin. destruct Hin as [[s ->]|(w & Hw & He & ->)]; [split; constructor|].
    apply in_map_iff in Hw. destruct Hw as (c & <- & Hc). apply (IH c Hc _ m Hag Hg (Hks c Hc) (Hrk c Hc)). }
  split; constructor.
  - apply squash_sorted.
  - rewrite (rname_get [squash (declare st m :: st)] (declare st m :: st)) by (intros p; rewrite one_get; apply squash_get).
    symmetry. apply rname_rname.
  - intros k Hin. apply Hk. exact Hin.
  - intros p u. rewrite !squash_get, Hg, Ho. apply Hext.
  - intros k Hin. apply Hk. exact Hin.
Qed.

Lemma reread_alike : forall t t' st st' o o', AlikeTree t t' -> agreeing st -> (forall p, nss_get st p = ns_get o p) ->
  Steady o t -> Resolved t -> agreeing st' -> (forall p, nss_get st' p = ns_get o' p) -> Steady o' t' -> Resolved t' ->
  AlikeTree (reread st (wn t)) (reread st' (wn t')).
Proof.
  induction t as [s|n a m ks IH] using node_ind'; intros t' st st' o o' Hal Ha Ho Hst Hr Ha' Ho' Hst' Hr'.
  { inversion Hal; subst. constructor. }
  inversion Hal as [|? ? ? ? n' a' m' ks' [Hl Hns] Hv Hf]; subst.
  inversion Hst as [|? ? ? ? ? Hext Hks]; subst. inversion Hr as [|? ? ? ? Hm Hn Hrk]; subst.
  inversion Hst' as [|? ? ? ? ? Hext' Hks']; subst. inversion Hr' as [|? ? ? ? Hm' Hn' Hrk']; subst.
  destruct (declare_get st o m Ha Hm Ho Hext) as [Hg Hag]. destruct (declare_get st' o' m' Ha' Hm' Ho' Hext') as [Hg' Hag'].
  cbn [wn]. rewrite !reread_elem. constructor.
  - split; [rewrite !local_rname; exact Hl|].
    rewrite (rname_get (declare st m :: st) [m]) by (intros p; rewrite Hg, one_get; reflexivity).
    rewrite (rname_get (declare st' m' :: st') [m']) by (intros p; rewrite Hg', one_get; reflexivity). congruence.
  - intros l. rewrite !values_rattr, Hv. reflexivity.
  - assert (Hgo : forall l l', Forall2 AlikeTree l l' -> (forall c, In c l -> In c ks) -> (forall c, In c l' -> In c ks') -> forall buf,
      Forall2 AlikeTree (reread_kids (declare st m :: st) (map wn l) buf) (reread_kids (declare st' m' :: st') (map wn l') buf)).
    { assert (Htn : forall buf, Forall2 AlikeTree (text_node buf) (text_node buf))
        by (intros buf; unfold text_node; destruct (str_nonws buf); repeat constructor).
      intros l l' Hll. induction Hll as [|c c' l l' Hcc Hll IHl]; intros Hin Hin' buf; [apply Htn|].
      pose proof (IH c (Hin c (or_introl eq_refl)) c' (declare st m :: st) (declare st' m' :: st') m m' Hcc Hag Hg
        (Hks c (Hin c (or_introl eq_refl))) (Hrk c (Hin c (or_introl eq_refl))) Hag' Hg'
        (Hks' c' (Hin' c' (or_introl eq_refl))) (Hrk' c' (Hin' c' (or_introl eq_refl)))) as Hc.
      assert (IHl' := IHl (fun y H => Hin y (or_intror H)) (fun y H => Hin' y (or_intror H))).
      inversion Hcc; subst; cbn [map wn reread_kids] in *.
      - apply IHl'.
      - apply Forall2_app; [apply Htn|]. constructor; [exact Hc|]. apply IHl'. }
    apply Hgo; auto.
Qed.

(** ** Values *)
Section Values.
  Variable x : ext.
  Variable E : env.
  Notation decode_at k := (decode x E (attr_value_at x E k) (flat_value_at x E k)).

  (** What attribute values contribute to a field. *)
  Definition value_given (av : nat -> string -> outcome value) (i : nat) (f : field) (s : string) : outcome (list (nat * value)) :=
    match f_ty f with
    | TVec b => ocollect (fun s => obind (attr_item x av b s) (fun v => OOk [(i, v)])) (split_ws s)
    | t => obind (attr_item x av (base_of t) s) (fun v => OOk [(i, v)])
    end.
  Lemma attr_values : forall av i f a, ocollect (attr_given x av i f) a = ocollect (value_given av i f) (values_of (snd (flabel ya0 f)) a).
  Proof.
    intros av i f a. induction a as [|b a IH]; [reflexivity|]. rewrite ocollect_cons. unfold values_of. cbn [filter].
    unfold attr_given at 1. destruct (String.eqb _ (snd (flabel ya0 f))).
    - cbn [map]. rewrite ocollect_cons. unfold values_of in IH. rewrite IH. reflexivity.
    - unfold values_of in IH. rewrite IH. cbn [obind app]. match goal with |- obind ?o _ = _ => destruct o; reflexivity end.
  Qed.
  Lemma attrs_alike : forall av fs a a', (forall l, values_of l a = values_of l a') -> attrs_given x av fs a = attrs_given x av fs a'.
  Proof.
    intros av fs a a' H. unfold attrs_given. apply ocollect_ext. intros [i f] _. cbn [fst snd].
    destruct (ya_attribute _); [|reflexivity]. rewrite !attr_values, H. reflexivity.
  Qed.

  Lemma collect_alike : forall (R : node -> node -> Prop) (f g : node -> outcome (list (nat * value))) l l',
    Forall2 R l l' -> (forall a b, In a l -> In b l' -> R a b -> f a = g b) -> ocollect f l = ocollect g l'.
  Proof.
    intros R f g l l' H. induction H as [|a b l l' Hab Hl IH]; intros Hfg; [reflexivity|]. cbn [ocollect].
    rewrite (Hfg a b (or_introl eq_refl) (or_introl eq_refl) Hab), IH; [reflexivity|]. intros; apply Hfg; try right; assumption.
  Qed.
  Lemma fold_alike : forall (R : node -> node -> Prop) (f g : option value -> node -> outcome (option value)) l l',
    Forall2 R l l' -> (forall a b c, In a l -> In b l' -> R a b -> f c a = g c b) -> forall c, ofold f l c = ofold g l' c.
  Proof.
    intros R f g l l' H. induction H as [|a b l l' Hab Hl IH]; intros Hfg c; [reflexivity|]. cbn [ofold].
    rewrite (Hfg a b c (or_introl eq_refl) (or_introl eq_refl) Hab). destruct (g c b); cbn [obind]; try reflexivity. apply IH.
    intros; apply Hfg; try right; assumption.
  Qed.

  Lemma field_for_alike : forall ra fs n n', same_expanded n n' -> field_for ra fs n = field_for ra fs n'.
  Proof. intros ra fs n n' [Hl Hns]. unfold field_for, elabel. rewrite Hl, Hns. reflexivity. Qed.
  Lemma bad_namespace_alike : forall ra n n', same_expanded n n' -> bad_namespace ra n = bad_namespace ra n'.
  Proof. intros ra n n' [Hl Hns]. unfold bad_namespace. rewrite Hl, Hns. reflexivity. Qed.

  Lemma filter_alike : forall ra fs l l', Forall2 AlikeTree l l' ->
    Forall2 AlikeTree (filter (is_left ra fs) l) (filter (is_left ra fs) l').
  Proof.
    intros ra fs l l' H. induction H as [|a b l l' Hab Hl IH]; [constructor|]. cbn [filter].
    assert (He : is_left ra fs a = is_left ra fs b).
    { inversion Hab; subst; [reflexivity|]. cbn [is_left]. rewrite (field_for_alike ra fs n n') by assumption. reflexivity. }
    rewrite He. destruct (is_left ra fs b); [constructor; assumption|exact IH].
  Qed.

  Lemma find_values : forall tg a, find (fun c => String.eqb (n_local (at_name c)) tg) a = None /\ values_of tg a = [] \/
    exists b r, find (fun c => String.eqb (n_local (at_name c)) tg) a = Some b /\ values_of tg a = at_value b :: r.
  Proof.
    intros tg a. unfold values_of. induction a as [|b a IH]; [left; split; reflexivity|]. cbn [find filter].
    destruct (String.eqb _ tg); [|exact IH]. right. exists b. cbn [map]. eauto.
  Qed.

  Definition kid_text (kids : list node) : option string := match kids with [Txt s] => Some s | _ => None end.
  Lemma text_alike : forall l l', Forall2 AlikeTree l l' -> kid_text l = kid_text l'.
  Proof.
    intros l l' H. destruct H as [|a b l l' Hab Hl]; [reflexivity|]. inversion Hab; subst; cbn [kid_text]; [|reflexivity].
    destruct Hl; reflexivity.
  Qed.
  Lemma match_text : forall A (l : list node) (f : string -> A) d,
    match l with [Txt s] => f s | _ => d end = match kid_text l with Some s => f s | None => d end.
  Proof. intros A [|[n a m ks|s] [|y l]] f d; reflexivity. Qed.

  Theorem decode_alike : forall k t t' o o' top id, AlikeTree t t' -> Steady o t -> Steady o' t' -> Resolved t -> Resolved t' ->
    decode_at k top id t = decode_at k top id t'.
  Proof.
    induction k as [k IHk] using (well_founded_induction lt_wf).
    induction t as [s|n a m ks IH] using node_ind'; intros t' o o' top id Hal Hs Hs' Hr Hr'.
    { inversion Hal; subst. reflexivity. }
    inversion Hal as [|? ? ? ? n' a' m' ks' Hn Hv Hf]; subst.
    inversion Hs as [|? ? ? ? ? Hext Hks]; subst. inversion Hr as [|? ? ? ? Hm Hnn Hrk]; subst.
    inversion Hs' as [|? ? ? ? ? Hext' Hks']; subst. inversion Hr' as [|? ? ? ? Hm' Hnn' Hrk']; subst.
    destruct (nth_error E id) as [td|] eqn:Htd; [|cbn [decode]; rewrite Htd; reflexivity].
    destruct (t_body td) as [fs|vs dflt|p] eqn:Hb.
    - assert (Hst : struct_type E id td fs) by (split; assumption).
      rewrite !(decode_struct _ _ _ _ _ _ _ _ _ _ _ _ Hst). rewrite (bad_namespace_alike _ n n' Hn).
      assert (Hc : contributions x E (attr_value_at x E k) (flat_value_at x E k) td fs n a m ks =
                   contributions x E (attr_value_at x E k) (flat_value_at x E k) td fs n' a' m' ks'); [|rewrite Hc; reflexivity].
      unfold contributions. rewrite (attrs_alike _ fs a a' Hv).
      rewrite (collect_alike AlikeTree (kid_given x (decode_at k false) (t_attrs td) fs) (kid_given x (decode_at k false) (t_attrs td) fs) ks ks' Hf).
      2:{ intros c c' Hin Hin' Hcc. inversion Hcc; subst; [reflexivity|]. cbn [kid_given].
          rewrite (field_for_alike _ fs n0 n'0) by assumption. destruct (field_for (t_attrs td) fs n'0) as [[i f]|]; [|reflexivity].
          destruct (base_of (f_ty f)) as [sm|id'].
          - unfold simple_given. rewrite !match_text. rewrite (text_alike ks0 ks'0) by assumption. reflexivity.
          - rewrite (IH _ Hin _ m m' false id' Hcc (Hks _ Hin) (Hks' _ Hin') (Hrk _ Hin) (Hrk' _ Hin')). reflexivity. }
      rewrite (flat_same (flat_value_at x E k) fs (rest_of (t_attrs td) fs n a m ks) (rest_of (t_attrs td) fs n' a' m' ks')); [reflexivity|].
      intros f id' Hin Hfl Hbt Hty. unfold rest_of. destruct k as [|k]; [reflexivity|]. cbn [flat_value_at]. rewrite !value_of_decode.
      set (r := Elem n a m (filter (is_left (t_attrs td) fs) ks)). set (r' := Elem n' a' m' (filter (is_left (t_attrs td) fs) ks')).
      assert (Hrr : AlikeTree r r') by (constructor; [exact Hn|exact Hv|apply filter_alike; exact Hf]).
      assert (HSr : Steady [] r) by (constructor; [discriminate|]; intros c Hc; apply filter_In in Hc; apply Hks, Hc).
      assert (HSr' : Steady [] r') by (constructor; [discriminate|]; intros c Hc; apply filter_In in Hc; apply Hks', Hc).
      assert (HRr : Resolved r) by (constructor; [exact Hm|exact Hnn|]; intros c Hc; apply filter_In in Hc; apply Hrk, Hc).
      assert (HRr' : Resolved r') by (constructor; [exact Hm'|exact Hnn'|]; intros c Hc; apply filter_In in Hc; apply Hrk', Hc).
      assert (Ha0 : agreeing []) by (intros ? ? ? []).
      destruct (reread_fine r [] [] Ha0 (fun p => eq_refl) HSr HRr) as [Hx1 Hx2].
      destruct (reread_fine r' [] [] Ha0 (fun p => eq_refl) HSr' HRr') as [Hx1' Hx2'].
      apply (IHk k (Nat.lt_succ_diag_r k)) with (o := squash []) (o' := squash []); try assumption.
      apply (reread_alike r r' [] [] [] [] Hrr Ha0 (fun p => eq_refl) HSr HRr Ha0 (fun p => eq_refl) HSr' HRr').
    - cbn [decode]. rewrite Htd, Hb. rewrite (bad_namespace_alike _ n n' Hn). destruct (bad_namespace (t_attrs td) n'); [reflexivity|].
      destruct (ya_tag (t_attrs td)) as [tg|].
      + specialize (Hv tg). destruct (find_values tg a) as [[H1 H2]|(b & r & H1 & H2)]; destruct (find_values tg a') as [[H3 H4]|(b' & r' & H3 & H4)];
          rewrite H1, H3; try congruence.
      + rewrite !match_text. rewrite (text_alike ks ks' Hf). destruct (kid_text ks'); [reflexivity|].
        rewrite (fold_alike AlikeTree (payload_given x (decode_at k false) vs) (payload_given x (decode_at k false) vs) ks ks' Hf); [reflexivity|].
        intros c c' cur Hin Hin' Hcc. inversion Hcc; subst; [reflexivity|]. cbn [payload_given].
        match goal with H : same_expanded _ _ |- _ => rewrite (proj1 H) end.
        destruct (variant_for vs (n_local n'0)) as [[i [|fl t|]]|]; try reflexivity.
        destruct (base_of t) as [sm|id'].
        * rewrite !match_text. rewrite (text_alike ks0 ks'0) by assumption. reflexivity.
        * rewrite (IH _ Hin _ m m' false id' Hcc (Hks _ Hin) (Hks' _ Hin') (Hrk _ Hin) (Hrk' _ Hin')). reflexivity.
    - cbn [decode]. rewrite Htd, Hb. rewrite !match_text. rewrite (text_alike ks ks' Hf). reflexivity.
  Qed.
End Values.
