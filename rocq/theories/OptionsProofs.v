(** * Options are read as they are written (C68). *)
From Verif Require Import Str Num Xml XmlText Reader Schema Macro Options SpecOptions SpecText TextProofs.
From Coq Require Import Permutation Lia.
Open Scope list_scope.

(** ** Maps *)
Lemma compare_eq : forall a b, String.compare a b = Eq -> a = b.
Proof. intros a b H. apply String.compare_eq_iff in H. exact H. Qed.

Lemma insert_in : forall m p u q v, increasing m ->
  (In (q, v) (btree_insert m p u) <-> (q = p /\ v = u) \/ (q <> p /\ In (q, v) m)).
Proof.
  induction m as [|[a b] m IH]; intros p u q v Hm; cbn [btree_insert].
  - cbn [In]. split; [intros [H|[]]; injection H as <- <-; left; split; reflexivity|intros [[-> ->]|[_ []]]; left; reflexivity].
  - destruct Hm as [Ha Hm]. destruct (String.compare p a) eqn:Hc.
    + apply compare_eq in Hc. subst a. cbn [In]. split.
      * intros [H|H]; [injection H as <- <-; left; split; reflexivity|].
        right. split; [|right; exact H]. intros ->. specialize (Ha p v H). rewrite compare_refl in Ha. discriminate Ha.
      * intros [[-> ->]|[Hn [H|H]]]; [left; reflexivity|injection H as <- <-; contradiction|right; exact H].
    + cbn [In]. split.
      * intros [H|H]; [injection H as <- <-; left; split; reflexivity|]. right. split; [|exact H]. intros ->.
        destruct H as [H|H]; [injection H as <- <-; rewrite compare_refl in Hc; discriminate Hc|].
        specialize (Ha p v H). pose proof (compare_trans _ _ _ Hc Ha) as Ht. rewrite compare_refl in Ht. discriminate Ht.
      * intros [[-> ->]|[_ H]]; [left; reflexivity|right; exact H].
    + cbn [In]. rewrite (IH p u q v Hm). split.
      * intros [H|[H|[Hn H]]]; [|left; exact H|right; split; [exact Hn|right; exact H]].
        injection H as <- <-. right. split; [|left; reflexivity]. intros ->. rewrite compare_refl in Hc. discriminate Hc.
      * intros [H|[Hn [H|H]]]; [right; left; exact H|left; exact H|right; right; split; assumption].
Qed.
Lemma insert_increasing : forall m p u, increasing m -> increasing (btree_insert m p u).
Proof.
  induction m as [|[a b] m IH]; intros p u Hm; cbn [btree_insert].
  - split; [intros q v []|exact I].
  - destruct Hm as [Ha Hm]. destruct (String.compare p a) eqn:Hc.
    + apply compare_eq in Hc. subst a. split; assumption.
    + split; [|split; assumption]. intros q v [H|H]; [injection H as <- <-; exact Hc|]. exact (compare_trans _ _ _ Hc (Ha q v H)).
    + split; [|apply IH; exact Hm]. intros q v H. apply insert_in in H; [|exact Hm].
      destruct H as [[-> ->]|[_ H]]; [apply compare_gt; exact Hc|exact (Ha q v H)].
Qed.

Lemma entry_snoc : forall l a b p u, entry (l ++ [(a, b)]) p u <-> (p = a /\ u = b) \/ (p <> a /\ entry l p u).
Proof.
  intros l a b p u. split.
  - intros (x & y & E & Hn). destruct y as [|c y] using rev_ind.
    + change (x ++ [(p, u)]) with (x ++ [(p, u)]) in E. apply app_inj_tail in E. destruct E as [_ E]. injection E as -> ->. left. split; reflexivity.
    + clear IHy. change (x ++ (p, u) :: y ++ [c]) with (x ++ ((p, u) :: y) ++ [c]) in E. rewrite app_assoc in E. apply app_inj_tail in E. destruct E as [E Ec]. subst c.
      rewrite map_app in Hn. right. split; [intros ->; apply Hn; apply in_or_app; right; left; reflexivity|].
      exists x, y. split; [exact E|]. intros H. apply Hn, in_or_app. left. exact H.
  - intros [[-> ->]|[Hn (x & y & -> & Hy)]].
    + exists l, []. split; [reflexivity|intros []].
    + exists x, (y ++ [(a, b)]). split; [rewrite <- app_assoc; reflexivity|]. rewrite map_app. intros H. apply in_app_or in H.
      destruct H as [H|[H|[]]]; [exact (Hy H)|exact (Hn (eq_sym H))].
Qed.
Lemma btree_of_ok : forall l, increasing (btree_of l) /\ forall p u, In (p, u) (btree_of l) <-> entry l p u.
Proof.
  intros l. induction l as [|[a b] l IH] using rev_ind.
  - split; [exact I|]. intros p u. split; [intros []|intros (x & y & E & _); destruct x; discriminate E].
  - unfold btree_of in *. rewrite fold_left_app. cbn [fold_left fst snd]. destruct IH as [I1 I2]. split; [apply insert_increasing; exact I1|].
    intros p u. rewrite (insert_in _ a b p u I1), entry_snoc, I2. reflexivity.
Qed.
Lemma increasing_unique : forall m m', increasing m -> increasing m' -> (forall p u, In (p, u) m <-> In (p, u) m') -> m = m'.
Proof.
  induction m as [|[a b] m IH]; intros m' Hm Hm' H.
  - destruct m' as [|[a' b'] m']; [reflexivity|]. destruct (proj2 (H a' b') (or_introl eq_refl)).
  - destruct m' as [|[a' b'] m']; [destruct (proj1 (H a b) (or_introl eq_refl))|].
    destruct Hm as [Ha Hm]. destruct Hm' as [Ha' Hm'].
    assert (Hab : (a, b) = (a', b')).
    { destruct (proj1 (H a b) (or_introl eq_refl)) as [E|E]; [symmetry; exact E|].
      destruct (proj2 (H a' b') (or_introl eq_refl)) as [E'|E']; [exact E'|].
      pose proof (compare_trans _ _ _ (Ha _ _ E') (Ha' _ _ E)) as Ht. rewrite compare_refl in Ht. discriminate Ht. }
    injection Hab as <- <-. f_equal. apply IH; [exact Hm|exact Hm'|]. intros p u. split; intros Hi.
    + destruct (proj1 (H p u) (or_intror Hi)) as [E|E]; [|exact E]. injection E as <- <-.
      specialize (Ha _ _ Hi). rewrite compare_refl in Ha. discriminate Ha.
    + destruct (proj2 (H p u) (or_intror Hi)) as [E|E]; [|exact E]. injection E as <- <-.
      specialize (Ha' _ _ Hi). rewrite compare_refl in Ha'. discriminate Ha'.
Qed.

(** ** One option *)
Definition agree (k : string) (y y' : yattr) : Prop :=
  ((k = "attribute" -> ya_attribute y = ya_attribute y') /\
   (k = "default" -> ya_default y = ya_default y') /\
   (k = "default_namespace" -> ya_default_namespace y = ya_default_namespace y') /\
   (k = "flatten" -> ya_flatten y = ya_flatten y') /\
   (k = "namespaces" -> ya_namespaces y = ya_namespaces y') /\
   (k = "prefix" -> ya_prefix y = ya_prefix y') /\
   (k = "rename" -> ya_rename y = ya_rename y') /\
   (k = "tag" -> ya_tag y = ya_tag y') /\
   (k = "skip_serializing" -> ya_skip y = ya_skip y') /\
   (k = "skip_serializing_if" -> ya_skip_if y = ya_skip_if y') /\
   (k = "text" -> ya_text y = ya_text y') /\
   (k = "cdata" -> ya_cdata y = ya_cdata y'))%string.

Lemma agree_refl : forall k y, agree k y y.
Proof. intros k y. repeat split. Qed.
Lemma agree_trans : forall k y y' y'', agree k y y' -> agree k y' y'' -> agree k y y''.
Proof.
  unfold agree. intros k y y' y'' H H'.
  repeat match goal with H : _ /\ _ |- _ => destruct H end.
  repeat match goal with |- _ /\ _ => split end; intros Hk;
    match goal with Ht : k = ?s -> _ = _, Hu : k = ?s -> _ = ?b |- _ = ?b => first [exact (eq_trans (Ht Hk) (Hu Hk)) | exact (eq_trans (Hu Hk) (Ht Hk))] end.
Qed.
Lemma agree_all : forall y y', (forall k, option_name k -> agree k y y') -> y = y'.
Proof.
  intros y y' H. destruct y, y'.
  pose proof (H "attribute"%string (ltac:(cbn; tauto))) as H1. pose proof (H "default"%string (ltac:(cbn; tauto))) as H2.
  pose proof (H "default_namespace"%string (ltac:(cbn; tauto))) as H3. pose proof (H "flatten"%string (ltac:(cbn; tauto))) as H4.
  pose proof (H "namespaces"%string (ltac:(cbn; tauto))) as H5. pose proof (H "prefix"%string (ltac:(cbn; tauto))) as H6.
  pose proof (H "rename"%string (ltac:(cbn; tauto))) as H7. pose proof (H "tag"%string (ltac:(cbn; tauto))) as H8.
  pose proof (H "skip_serializing"%string (ltac:(cbn; tauto))) as H9. pose proof (H "skip_serializing_if"%string (ltac:(cbn; tauto))) as H10.
  pose proof (H "text"%string (ltac:(cbn; tauto))) as H11. pose proof (H "cdata"%string (ltac:(cbn; tauto))) as H12.
  clear H. unfold agree in *.
  f_equal; [apply H1|apply H2|apply H3|apply H4|apply H5|apply H6|apply H7|apply H8|apply H9|apply H10|apply H11|apply H12]; reflexivity.
Qed.

Ltac each_key k :=
  repeat match goal with
  | |- context [String.eqb k ?s] => destruct (String.eqb_spec k s) as [->|?]
  | H : context [String.eqb k ?s] |- _ => destruct (String.eqb_spec k s) as [->|?]
  end.

Lemma set_name : forall k v y, option_name k <-> set_option k v y <> None.
Proof.
  intros k v y. destruct y. unfold set_option, option_name. cbn [map fst silent In]. split.
  - intros H. repeat (destruct H as [<-|H]; [cbn; discriminate|]). destruct H.
  - intros H. each_key k; try tauto.
Qed.

Ltac agree_split := unfold agree; repeat split; intros Hk; subst; try reflexivity; try congruence.

Lemma set_says : forall k v y y', set_option k v y = Some (Ok y') ->
  says k v y' /\ forall k', k' <> k -> agree k' y y'.
Proof.
  intros k v y y' H. destruct y. unfold set_option in H. each_key k;
    try discriminate H; injection H as H;
    try (destruct (as_bool v) as [b|] eqn:E; [|discriminate H]; cbn [rmap] in H; injection H as <-;
         split; [constructor; exact E|intros k' Hn; agree_split]; fail);
    try (destruct (as_str v) as [s|] eqn:E; [|discriminate H]; cbn [rmap] in H; injection H as <-;
         split; [econstructor; [exact E|reflexivity]|intros k' Hn; agree_split]; fail).
  destruct (as_map v) as [l|] eqn:E; [|discriminate H]; cbn [rmap] in H; injection H as <-.
  destruct (btree_of_ok l) as [B1 B2].
  split; [econstructor; [exact E|exact B1|exact B2]|intros k' Hn; agree_split].
Qed.

Lemma says_set : forall k v y y', says k v y' -> exists z, set_option k v y = Some (Ok z).
Proof.
  intros k v y y' H. destruct y. destruct H; cbn;
    match goal with H : _ = Ok _ |- _ => rewrite H end; eexists; reflexivity.
Qed.

Lemma says_name : forall k v y, says k v y -> option_name k.
Proof. intros k v y H. destruct H; cbn; tauto. Qed.

Lemma says_agree : forall k v y y', says k v y -> says k v y' -> agree k y y'.
Proof.
  intros k v y y' H H'. destruct H; inversion H'; subst; unfold agree; repeat split; intros Hk; try discriminate Hk; try congruence.
  apply increasing_unique; [assumption|assumption|]. intros p u.
  match goal with A : as_map v = Ok ?l, B : as_map v = Ok ?l', C : forall p u, In _ (ya_namespaces y) <-> _, D : forall p u, In _ (ya_namespaces y') <-> _ |- _ =>
    rewrite C, D; assert (l = l') as -> by congruence; reflexivity end.
Qed.
Lemma says_move : forall k v y y', agree k y y' -> says k v y -> says k v y'.
Proof.
  intros k v y y' H Hs. unfold agree in H. repeat match goal with H : _ /\ _ |- _ => destruct H end.
  destruct Hs;
    repeat match goal with H : ?a = ?a -> _ |- _ => specialize (H eq_refl) end;
    econstructor; try eassumption; try congruence.
  all: match goal with E : ya_namespaces _ = ya_namespaces _ |- _ => rewrite <- E; assumption end.
Qed.
Lemma silent_name : forall k D, In (k, D) silent -> option_name k.
Proof. intros k D H. exact (in_map fst _ _ H). Qed.
Lemma silent_move : forall k D y y', In (k, D) silent -> agree k y y' -> D y -> D y'.
Proof.
  intros k D y y' H Ha. unfold agree in Ha. cbn [silent In] in H.
  repeat match goal with H : _ /\ _ |- _ => destruct H end.
  repeat (destruct H as [H|H]; [injection H as <- <-;
    repeat match goal with H : ?a = ?a -> _ |- _ => specialize (H eq_refl) end; congruence|]).
  destruct H.
Qed.
Lemma silent_agree : forall k D y y', In (k, D) silent -> D y -> D y' -> agree k y y'.
Proof.
  intros k D y y' H Hy Hy'. cbn [silent In] in H.
  repeat (destruct H as [H|H]; [injection H as <- <-; unfold agree; repeat split; intros Hk; try discriminate Hk; congruence|]).
  destruct H.
Qed.
Lemma silent_ya0 : forall k D, In (k, D) silent -> D ya0.
Proof. intros k D H. cbn [silent In] in H. repeat (destruct H as [H|H]; [injection H as <- <-; reflexivity|]). destruct H. Qed.

(** ** Lists of options *)
Lemma existsb_in : forall k l, existsb (String.eqb k) l = true <-> In k l.
Proof.
  intros k l. rewrite existsb_exists. split; [intros (a & H & E); apply String.eqb_eq in E; subst; exact H|].
  intros H. exists k. split; [exact H|apply String.eqb_refl].
Qed.

Lemma option_name_dec : forall k, {option_name k} + {~ option_name k}.
Proof. intros k. apply in_dec, string_dec. Qed.

Lemma read_from_ok : forall l seen y y', read_from seen y l = Ok y' ->
  once l /\
  (forall k, In k seen -> option_name k -> ~ In k (map fst l)) /\
  (forall k v, In (k, v) l -> option_name k -> says k v y') /\
  (forall k v, In (k, v) l -> ~ option_name k -> as_any v = Ok tt) /\
  (forall k, option_name k -> ~ In k (map fst l) -> agree k y y').
Proof.
  induction l as [|[k v] l IH]; intros seen y y' H; cbn [read_from] in H.
  - injection H as <-. split; [intros k b v m v' a _ E; destruct b; discriminate E|].
    split; [intros k _ _ []|]. split; [intros k v []|]. split; [intros k v []|]. intros k _ _. apply agree_refl.
  - destruct (set_option k v y) as [r|] eqn:Es.
    + assert (Hk : option_name k) by (apply (set_name k v y); rewrite Es; discriminate).
      destruct (existsb (String.eqb k) seen) eqn:Ex; [discriminate H|].
      destruct r as [y1|m]; cbn [rbind] in H; [|discriminate H].
      destruct (IH _ _ _ H) as (I1 & I2 & I3 & I4 & I5). destruct (set_says _ _ _ _ Es) as [S1 S2].
      assert (Hnk : ~ In k (map fst l)) by (apply I2; [left; reflexivity|exact Hk]).
      split; [|split; [|split; [|split]]].
      * intros k' b w m w' a Hk' E. destruct b as [|p b]; cbn [app] in E.
        -- injection E as <- <- E2. apply Hnk. rewrite E2, map_app. apply in_or_app. right. left. reflexivity.
        -- injection E as _ E2. exact (I1 k' b w m w' a Hk' E2).
      * intros k' Hs Hk' [E|Hi]; [|exact (I2 k' (or_intror Hs) Hk' Hi)].
        cbn [fst] in E. subst k'. apply existsb_in in Hs. rewrite Hs in Ex. discriminate Ex.
      * intros k' w [E|Hi] Hk'; [|exact (I3 k' w Hi Hk')]. injection E as <- <-.
        exact (says_move _ _ _ _ (I5 k Hk Hnk) S1).
      * intros k' w [E|Hi] Hk'; [|exact (I4 k' w Hi Hk')]. injection E as <- <-. contradiction.
      * intros k' Hk' Hn. apply agree_trans with y1; [apply S2; intros ->; apply Hn; left; reflexivity|].
        apply I5; [exact Hk'|]. intros Hi. apply Hn. right. exact Hi.
    + assert (Hk : ~ option_name k) by (intros Hk; apply (proj1 (set_name k v y) Hk); exact Es).
      destruct (as_any v) as [[]|m] eqn:Ea; cbn [rbind] in H; [|discriminate H].
      destruct (IH _ _ _ H) as (I1 & I2 & I3 & I4 & I5).
      split; [|split; [|split; [|split]]].
      * intros k' b w m w' a Hk' E. destruct b as [|p b]; cbn [app] in E.
        -- injection E as <- <- E2. contradiction.
        -- injection E as _ E2. exact (I1 k' b w m w' a Hk' E2).
      * intros k' Hs Hk' [E|Hi]; [|exact (I2 k' Hs Hk' Hi)]. cbn [fst] in E. subst k'. contradiction.
      * intros k' w [E|Hi] Hk'; [|exact (I3 k' w Hi Hk')]. injection E as <- <-. contradiction.
      * intros k' w [E|Hi] Hk'; [|exact (I4 k' w Hi Hk')]. injection E as <- <-. exact Ea.
      * intros k' Hk' Hn. apply I5; [exact Hk'|]. intros Hi. apply Hn. right. exact Hi.
Qed.

Lemma once_tail : forall p l, once (p :: l) -> once l.
Proof. intros p l H k b v m v' a Hk E. apply (H k (p :: b) v m v' a Hk). cbn [app]. rewrite E. reflexivity. Qed.
Lemma once_head : forall k v l, once ((k, v) :: l) -> option_name k -> ~ In k (map fst l).
Proof.
  intros k v l H Hk Hi. apply in_map_iff in Hi. destruct Hi as ([k' v'] & E & Hi). cbn [fst] in E. subst k'.
  apply in_split in Hi. destruct Hi as (m & a & ->). exact (H k [] v m v' a Hk eq_refl).
Qed.
Lemma read_from_total : forall l seen y z, once l ->
  (forall k, In k seen -> option_name k -> ~ In k (map fst l)) ->
  (forall k v, In (k, v) l -> option_name k -> says k v z) ->
  (forall k v, In (k, v) l -> ~ option_name k -> as_any v = Ok tt) ->
  exists y', read_from seen y l = Ok y'.
Proof.
  induction l as [|[k v] l IH]; intros seen y z H1 H2 H3 H4; cbn [read_from].
  - exists y. reflexivity.
  - destruct (option_name_dec k) as [Hk|Hk].
    + destruct (says_set k v y z (H3 k v (or_introl eq_refl) Hk)) as [y1 ->].
      destruct (existsb (String.eqb k) seen) eqn:Ex.
      { apply existsb_in in Ex. destruct (H2 k Ex Hk). left. reflexivity. }
      cbn [rbind]. apply (IH (k :: seen) y1 z); [exact (once_tail _ _ H1)| | |].
      * intros k' [<-|Hs] Hk'; [exact (once_head _ _ _ H1 Hk')|]. intros Hi. apply (H2 k' Hs Hk'). right. exact Hi.
      * intros k' w Hi. apply H3. right. exact Hi.
      * intros k' w Hi. apply H4. right. exact Hi.
    + destruct (set_option k v y) eqn:Es; [exfalso; apply Hk, (set_name k v y); rewrite Es; discriminate|].
      rewrite (H4 k v (or_introl eq_refl) Hk). cbn [rbind]. apply (IH seen y z); [exact (once_tail _ _ H1)| | |].
      * intros k' Hs Hk' Hi. apply (H2 k' Hs Hk'). right. exact Hi.
      * intros k' w Hi. apply H3. right. exact Hi.
      * intros k' w Hi. apply H4. right. exact Hi.
Qed.

Theorem options_as_written : forall l y, read_options l = Ok y <-> as_written l y.
Proof.
  intros l y. unfold read_options. split.
  - intros H. destruct (read_from_ok _ _ _ _ H) as (I1 & _ & I3 & I4 & I5). split; [exact I1|]. split; [exact I3|]. split; [exact I4|].
    intros k D HD Hn. apply (silent_move k D ya0 y HD); [apply I5; [exact (silent_name k D HD)|exact Hn]|exact (silent_ya0 k D HD)].
  - intros (H1 & H2 & H3 & H4).
    destruct (read_from_total l [] ya0 y H1 (fun k (H : In k []) => match H with end) H2 H3) as [y' Hy'].
    rewrite Hy'. f_equal. destruct (read_from_ok _ _ _ _ Hy') as (_ & _ & I3 & _ & I5).
    apply agree_all. intros k Hk. destruct (in_dec string_dec k (map fst l)) as [Hi|Hn].
    + apply in_map_iff in Hi. destruct Hi as ([k' v] & E & Hi). cbn [fst] in E. subst k'.
      exact (says_agree k v y' y (I3 k v Hi Hk) (H2 k v Hi Hk)).
    + pose proof Hk as Hk'. unfold option_name in Hk'. apply in_map_iff in Hk'. destruct Hk' as ([k' D] & E & HD). cbn [fst] in E. subst k'.
      apply (silent_agree k D y' y HD); [|exact (H4 k D HD Hn)].
      exact (silent_move k D ya0 y' HD (I5 k Hk Hn) (silent_ya0 k D HD)).
Qed.

Definition named (l : list (string * otok)) : list string :=
  filter (fun k => if option_name_dec k then true else false) (map fst l).
Lemma once_nodup : forall l, once l <-> NoDup (named l).
Proof.
  induction l as [|[k v] l IH]; unfold named in *; cbn [map fst filter].
  - split; [intros _; constructor|]. intros _ k b v m v' a _ E. destruct b; discriminate E.
  - destruct (option_name_dec k) as [Hk|Hk].
    + split.
      * intros H. constructor; [|apply IH; exact (once_tail _ _ H)]. intros Hi. apply filter_In in Hi. exact (once_head _ _ _ H Hk (proj1 Hi)).
      * intros H. inversion H as [|? ? Hn Hd]; subst. intros k' b w m w' a Hk' E.
        destruct b as [|p b]; cbn [app] in E.
        -- injection E as <- <- E2. apply Hn, filter_In. split; [|destruct (option_name_dec k); [reflexivity|contradiction]].
           rewrite E2, map_app. apply in_or_app. right. left. reflexivity.
        -- injection E as _ E2. exact (proj2 IH Hd k' b w m w' a Hk' E2).
    + split.
      * intros H. apply IH. exact (once_tail _ _ H).
      * intros H k' b w m w' a Hk' E. destruct b as [|p b]; cbn [app] in E.
        -- injection E as <- <- E2. contradiction.
        -- injection E as _ E2. exact (proj2 IH H k' b w m w' a Hk' E2).
Qed.
Lemma filter_perm {A} (f : A -> bool) : forall l l', Permutation l l' -> Permutation (filter f l) (filter f l').
Proof.
  intros l l' H. induction H as [|a l l' H IH|a b l|l l' l'' H IH H' IH']; cbn [filter].
  - constructor.
  - destruct (f a); [constructor; exact IH|exact IH].
  - destruct (f a), (f b); try apply Permutation_refl. apply perm_swap.
  - exact (Permutation_trans IH IH').
Qed.
Theorem options_any_order : forall l l' y, Permutation l l' -> read_options l = Ok y -> read_options l' = Ok y.
Proof.
  intros l l' y Hp H. apply options_as_written in H. apply options_as_written. destruct H as (H1 & H2 & H3 & H4).
  assert (Hin : forall p, In p l' -> In p l) by (intros p; apply (Permutation_in p (Permutation_sym Hp))).
  split; [|split; [|split]].
  - apply once_nodup. apply once_nodup in H1. unfold named in *. eapply Permutation_NoDup; [|exact H1]. apply filter_perm, Permutation_map, Hp.
  - intros k v Hi. apply H2, Hin, Hi.
  - intros k v Hi. apply H3, Hin, Hi.
  - intros k D HD Hn. apply (H4 k D HD). intros Hi. apply Hn. exact (Permutation_in k (Permutation_map fst Hp) Hi).
Qed.

(** ** The attributes of an item *)
From Verif Require Import SpecMacro.
Theorem first_attribute : forall pre l post y, Forall foreign pre ->
  (yattr_from (pre ++ yaserde_attr l :: post) = MOk y <-> as_written l y).
Proof.
  intros pre l post y H. rewrite <- options_as_written. induction H as [|a pre Ha H IH]; cbn [app yattr_from].
  - unfold yattr_try, yaserde_attr. cbn [ra_path ra_meta]. rewrite String.eqb_refl.
    destruct (read_options l); cbn [mbind]; split; intros E; congruence.
  - unfold yattr_try at 1. destruct (String.eqb_spec (ra_path a) "yaserde") as [E|_]; [destruct (Ha E)|]. cbn [mbind]. exact IH.
Qed.
