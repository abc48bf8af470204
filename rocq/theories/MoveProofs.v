(** * Fields in other places and new fields (C57): proofs. *)
From Verif Require Import Str Num Xml XmlText Reader Schema De SpecTree SpecStruct SpecSource SpecEvolve SpecMove
  RunFacts ReaderProofs TreeFacts CleanProofs CompleteProofs CutProofs.
From Coq Require Import Lia Permutation.
Open Scope list_scope.

(** ** Programs that succeed on the same sources, with related results *)
Definition all_rest (Q : event -> Prop) (v : vstate) : Prop := forall e, In e (v_rest v) -> Q e.
Lemma rest_shrinks : forall A (p : prog A) v e, In e (v_rest (snd (vrun p v))) -> In e (v_rest v).
Proof.
  induction p as [a|m|m| |k IH|k IH|k IH]; intros v e H; cbn [vrun snd] in *; auto.
  - eapply IH; exact H.
  - unfold vnext in H. destruct (v_rest v) as [|e0 r] eqn:Hr; [apply IH in H; rewrite Hr in H; exact H|].
    destruct (bump (v_depth v) e0); cbn [snd v_rest] in H; [apply IH in H; cbn [v_rest] in H|]; right; exact H.
  - eapply IH; exact H.
Qed.
Lemma all_after : forall A Q (p : prog A) v o v1, all_rest Q v -> vrun p v = (o, v1) -> all_rest Q v1.
Proof. intros A Q p v o v1 H Hr e He. apply H. eapply rest_shrinks with (p := p). rewrite Hr. exact He. Qed.

Definition sim {A B} (Q : event -> Prop) (R : A -> B -> Prop) (p : prog A) (q : prog B) : Prop :=
  forall v, all_rest Q v ->
    match vrun p v, vrun q v with
    | (OOk a, v1), (OOk b, v2) => v2 = v1 /\ R a b
    | (OOk _, _), _ => False
    | _, (OOk _, _) => False
    | _, _ => True
    end.

Section Sim.
  Variable Q : event -> Prop.
  Hypothesis QE : Q EEndDoc.
  Lemma sim_ret : forall A B (R : A -> B -> Prop) a b, R a b -> sim Q R (Ret a) (Ret b).
  Proof. intros A B R a b H v _. cbn [vrun]. auto. Qed.
  Lemma sim_throw : forall A B (R : A -> B -> Prop) m m', sim Q R (Throw m) (Throw m').
  Proof. intros A B R m m' v _. exact I. Qed.
  Lemma sim_crash : forall A B (R : A -> B -> Prop) m m', sim Q R (Crash m) (Crash m').
  Proof. intros A B R m m' v _. exact I. Qed.
  Lemma sim_stuck : forall A B (R : A -> B -> Prop), sim Q R Stuck Stuck.
  Proof. intros A B R v _. exact I. Qed.
  Lemma sim_bind : forall A A' B B' (R : A -> A' -> Prop) (S : B -> B' -> Prop) p q f g,
    sim Q R p q -> (forall a a', R a a' -> sim Q S (f a) (g a')) -> sim Q S (bind p f) (bind q g).
  Proof.
    intros A A' B B' R S p q f g Hp Hf v Hv. rewrite !vrun_bind. specialize (Hp v Hv).
    destruct (vrun p v) as [[a|m|m|] v1] eqn:H1, (vrun q v) as [[b|m'|m'|] v2] eqn:H2; try contradiction; try exact I.
    destruct Hp as [-> HR]. apply (Hf a b HR). exact (all_after _ _ _ _ _ _ Hv H1).
  Qed.
  Lemma sim_same : forall A (p : prog A), sim Q eq p p.
  Proof. intros A p v _. destruct (vrun p v) as [[a|m|m|] v1]; auto. Qed.
  Lemma sim_then : forall A B B' (S : B -> B' -> Prop) (p : prog A) f g, (forall a, sim Q S (f a) (g a)) -> sim Q S (bind p f) (bind p g).
  Proof. intros A B B' S p f g H. apply sim_bind with (R := eq); [apply sim_same|]. intros a a' <-. apply H. Qed.
  Lemma sim_depth : forall A B (R : A -> B -> Prop) f g, (forall d, sim Q R (f d) (g d)) -> sim Q R (Depth f) (Depth g).
  Proof. intros A B R f g H v Hv. cbn [vrun]. apply H, Hv. Qed.
  Lemma sim_next : forall A B (R : A -> B -> Prop) f g, (forall r, sim Q R (f r) (g r)) -> sim Q R (Next f) (Next g).
  Proof.
    intros A B R f g H v Hv. cbn [vrun]. destruct (vnext v) as [[r|] v'] eqn:Hn; [|exact I].
    apply H. intros e He. apply Hv. unfold vnext in Hn. destruct (v_rest v) as [|e0 l] eqn:Hr.
    - inversion Hn; subst. rewrite Hr in He. exact He.
    - destruct (bump (v_depth v) e0); [|discriminate]. inversion Hn; subst. right. exact He.
  Qed.
  Lemma sim_peek : forall A B (R : A -> B -> Prop) f g, (forall r, sim Q R (f r) (g r)) -> sim Q R (Peek f) (Peek g).
  Proof. intros A B R f g H v Hv. cbn [vrun]. apply H, Hv. Qed.
  Lemma sim_peek_ : forall A B (R : A -> B -> Prop) f g, (forall e, Q e -> sim Q R (f e) (g e)) ->
    sim Q R (bind peek_ f) (bind peek_ g).
  Proof.
    intros A B R f g H v Hv. rewrite !vrun_peek_. destruct (vpeek v) as [e|] eqn:Hp; [|exact I].
    apply H; [|exact Hv]. unfold vpeek in Hp. destruct (v_rest v) as [|e0 l] eqn:Hr.
    - destruct (v_fin v); [|discriminate]. inversion Hp. exact QE.
    - inversion Hp; subst. apply Hv. rewrite Hr. left. reflexivity.
  Qed.
  Lemma sim_imp : forall A B (R S : A -> B -> Prop) p q, (forall a b, R a b -> S a b) -> sim Q R p q -> sim Q S p q.
  Proof.
    intros A B R S p q H Hp v Hv. specialize (Hp v Hv).
    destruct (vrun p v) as [[a|m|m|] v1], (vrun q v) as [[b|m'|m'|] v2]; auto. destruct Hp; auto.
  Qed.
End Sim.
Lemma sim_less : forall A B (Q Q' : event -> Prop) (R : A -> B -> Prop) p q, (forall e, Q' e -> Q e) -> sim Q R p q -> sim Q' R p q.
Proof. intros A B Q Q' R p q H Hp v Hv. apply Hp. intros e He. apply H, Hv, He. Qed.

(** Programs that look at no event. *)
Definition leaf {A} (p : prog A) : Prop := match p with Ret _ | Throw _ | Crash _ | Stuck => True | _ => False end.
Definition ok {A} (p : prog A) : option A := match p with Ret a => Some a | _ => None end.
Definition orel {A B} (R : A -> B -> Prop) (o : option A) (o' : option B) : Prop :=
  match o, o' with Some a, Some b => R a b | None, None => True | _, _ => False end.
Lemma leaf_bind : forall A B (p : prog A) (f : A -> prog B), leaf p -> (forall a, leaf (f a)) -> leaf (bind p f).
Proof. intros A B p f Hp Hf. destruct p; try contradiction; cbn [bind]; [apply Hf|exact I|exact I|exact I]. Qed.
Lemma ok_bind : forall A B (p : prog A) (f : A -> prog B), leaf p -> ok (bind p f) = match ok p with Some a => ok (f a) | None => None end.
Proof. intros A B p f Hp. destruct p; try contradiction; reflexivity. Qed.
Lemma sim_leaf : forall A B Q (R : A -> B -> Prop) p q, leaf p -> leaf q -> orel R (ok p) (ok q) -> sim Q R p q.
Proof.
  intros A B Q R p q Hp Hq H v _. destruct p; try contradiction; destruct q; try contradiction; cbn [ok orel vrun] in *; try contradiction; auto.
Qed.

(** ** Lists treated item by item *)
Section Each.
  Variables (A B C : Type) (T : A -> B -> option C).
  Fixpoint each (l : list A) (m : list B) : option (list C) :=
    match l, m with
    | [], [] => Some []
    | a :: l', b :: m' =>
        match T a b with
        | Some c => match each l' m' with Some r => Some (c :: r) | None => None end
        | None => None
        end
    | _, _ => None
    end.
  Lemma each_some : forall l m r, each l m = Some r ->
    List.length m = List.length l /\ List.length r = List.length l /\
    forall i a b, nth_error l i = Some a -> nth_error m i = Some b -> exists c, T a b = Some c /\ nth_error r i = Some c.
  Proof.
    induction l as [|a l IH]; intros [|b m] r H; cbn [each] in H; try discriminate.
    - inversion H; subst. repeat split. intros [|i] a b Ha; discriminate.
    - destruct (T a b) as [c|] eqn:Hc; [|discriminate]. destruct (each l m) as [r0|] eqn:Hr; [|discriminate]. inversion H; subst.
      destruct (IH m r0 Hr) as (H1 & H2 & H3). cbn [List.length]. split; [congruence|]. split; [congruence|].
      intros [|i] a' b' Ha Hb; cbn [nth_error] in *; [|eapply H3; eassumption]. inversion Ha; inversion Hb; subst. eauto.
  Qed.
  Lemma each_all : forall l m, List.length m = List.length l ->
    (forall i a b, nth_error l i = Some a -> nth_error m i = Some b -> exists c, T a b = Some c) -> exists r, each l m = Some r.
  Proof.
    induction l as [|a l IH]; intros [|b m] Hl H; try discriminate; [exists []; reflexivity|]. cbn [each].
    destruct (H 0 a b eq_refl eq_refl) as [c ->]. destruct (IH m) as [r ->]; [cbn in Hl; lia| |eauto].
    intros i a' b' Ha Hb. exact (H (S i) a' b' Ha Hb).
  Qed.
End Each.
Arguments each {A B C} T l m.
Lemma nth_exists : forall A (l : list A) i, i < List.length l -> exists a, nth_error l i = Some a.
Proof. intros A l i H. destruct (nth_error l i) eqn:E; [eauto|]. apply nth_error_None in E. lia. Qed.
Lemma nth_below : forall A (l : list A) i a, nth_error l i = Some a -> i < List.length l.
Proof. intros A l i a H. apply nth_error_Some. congruence. Qed.

Lemma upd_len : forall A (g : A -> A) l j, List.length (upd j g l) = List.length l.
Proof. intros A g l; induction l as [|a l IH]; intros [|j]; cbn [upd List.length]; auto. Qed.
Lemma upd_nth_other : forall A (g : A -> A) l j k, j <> k -> nth_error (upd j g l) k = nth_error l k.
Proof. intros A g l; induction l as [|a l IH]; intros [|j] [|k] H; cbn [upd nth_error]; auto; congruence. Qed.
Lemma upd_nth : forall A (g : A -> A) l j a, nth_error l j = Some a -> nth_error (upd j g l) j = Some (g a).
Proof. intros A g l; induction l as [|b l IH]; intros [|j] a H; cbn [upd nth_error] in *; try discriminate; [inversion H; reflexivity|auto]. Qed.

(** ** Plans *)
Lemma in_old : forall p k, In k (old_fields p) <-> In (Some k) p.
Proof.
  intros p k. unfold old_fields. rewrite in_flat_map. split.
  - intros ([m|] & Hin & Hk); [|destruct Hk]. destruct Hk as [->|[]]. exact Hin.
  - intros H. exists (Some k). split; [exact H|left; reflexivity].
Qed.
Lemma old_once : forall p i j k, NoDup (old_fields p) -> nth_error p i = Some (Some k) -> nth_error p j = Some (Some k) -> i = j.
Proof.
  induction p as [|o p IH]; intros i j k Hn Hi Hj; [destruct i; discriminate|].
  assert (Ht : NoDup (old_fields p)).
  { destruct o; cbn in Hn; [inversion Hn; assumption|exact Hn]. }
  assert (Hx : forall m, nth_error p m = Some (Some k) -> o <> Some k).
  { intros m Hm ->. cbn in Hn. inversion Hn as [|? ? Hk _]; subst. apply Hk. apply in_old. eapply nth_error_In. exact Hm. }
  destruct i as [|i], j as [|j]; cbn [nth_error] in *.
  - reflexivity.
  - inversion Hi; subst. destruct (Hx j Hj eq_refl).
  - inversion Hj; subst. destruct (Hx i Hi eq_refl).
  - f_equal. eapply IH; eassumption.
Qed.

Lemma f2_length : forall A B (R : A -> B -> Prop) l m, Forall2 R l m -> List.length m = List.length l.
Proof. intros A B R l m H. induction H; cbn [List.length]; congruence. Qed.

Section Plan.
  Variables (x' : ext) (ra : yattr) (p : plan) (fs fs' : list field).
  Hypothesis HP : rearranged_fields x' p fs fs'.
  Hypothesis HK : keeps_order ra fs p.

  Lemma plan_nodup : NoDup (old_fields p).
  Proof. destruct HP as (H & _). eapply Permutation_NoDup; [apply Permutation_sym; exact H|apply seq_NoDup]. Qed.
  Lemma plan_has : forall k, k < List.length fs -> exists j, nth_error p j = Some (Some k).
  Proof.
    intros k Hk. destruct HP as (H & _). apply In_nth_error. apply in_old.
    eapply Permutation_in; [apply Permutation_sym; exact H|]. apply in_seq. lia.
  Qed.
  Lemma plan_length : List.length fs' = List.length p.
  Proof. destruct HP as (_ & H). exact (f2_length _ _ _ _ _ H). Qed.
  Lemma plan_field : forall j o f, nth_error p j = Some o -> nth_error fs' j = Some f ->
    match o with Some k => nth_error fs k = Some f | None => missing_value x' f <> None /\ flat_field f = false end.
  Proof.
    destruct HP as (_ & H). revert H. generalize p as q, fs' as gs. intros q gs H.
    induction H as [|o f q gs H1 H2 IH]; intros [|j] o' f' Ho Hf; try discriminate; cbn [nth_error] in *.
    - inversion Ho; inversion Hf; subst. exact H1.
    - exact (IH j o' f' Ho Hf).
  Qed.
  Lemma plan_at : forall k f, nth_error fs k = Some f -> exists j, nth_error p j = Some (Some k) /\ nth_error fs' j = Some f.
  Proof.
    intros k f Hf. destruct (plan_has k (nth_below _ _ _ _ Hf)) as [j Hj]. exists j. split; [exact Hj|].
    destruct (nth_exists _ fs' j) as [f' Hf']; [rewrite plan_length; exact (nth_below _ _ _ _ Hj)|].
    pose proof (plan_field j _ _ Hj Hf') as H. cbn in H. congruence.
  Qed.
  Lemma plan_of : forall j f, nth_error fs' j = Some f -> exists o, nth_error p j = Some o.
  Proof. intros j f Hf. apply nth_exists. rewrite <- plan_length. exact (nth_below _ _ _ _ Hf). Qed.

  (** Two lists of things that belong to the fields. *)
  Definition placed {B B'} (R : field -> B -> B' -> Prop) (N : field -> B' -> Prop) (l : list B) (l' : list B') : Prop :=
    List.length l = List.length fs /\ List.length l' = List.length fs' /\
    (forall j k f a b, nth_error p j = Some (Some k) -> nth_error fs k = Some f ->
       nth_error l k = Some a -> nth_error l' j = Some b -> R f a b) /\
    (forall j f b, nth_error p j = Some None -> nth_error fs' j = Some f -> nth_error l' j = Some b -> N f b).

  Lemma each_placed : forall B B' C C' (R : field -> B -> B' -> Prop) (N : field -> B' -> Prop) (S : field -> C -> C' -> Prop) (M : field -> C' -> Prop) T T' l l',
    (forall f a b, In f fs -> R f a b -> orel (S f) (T f a) (T' f b)) ->
    (forall j f b, nth_error p j = Some None -> nth_error fs' j = Some f -> N f b -> exists c, T' f b = Some c /\ M f c) ->
    placed R N l l' -> orel (placed S M) (each T fs l) (each T' fs' l').
  Proof.
    intros B B' C C' R N S M T T' l l' HT HN (L & L' & HR & HM).
    assert (Hfwd : forall r, each T fs l = Some r -> exists r', each T' fs' l' = Some r').
    { intros r Hr. apply each_some in Hr. destruct Hr as (_ & _ & Hr). apply each_all; [exact L'|].
      intros j f b Hf Hb. destruct (plan_of j f Hf) as [[k|] Ho].
      - pose proof (plan_field j _ _ Ho Hf) as Hk. cbn in Hk.
        destruct (nth_exists _ l k) as [a Ha]; [rewrite L; exact (nth_below _ _ _ _ Hk)|].
        destruct (Hr k f a Hk Ha) as (c & Hc & _). pose proof (HT f a b (nth_error_In _ _ Hk) (HR j k f a b Ho Hk Ha Hb)) as H.
        rewrite Hc in H. destruct (T' f b) as [c'|]; [eauto|contradiction].
      - destruct (HN j f b Ho Hf (HM j f b Ho Hf Hb)) as (c & Hc & _). eauto. }
    assert (Hbwd : forall r', each T' fs' l' = Some r' -> exists r, each T fs l = Some r).
    { intros r Hr. apply each_some in Hr. destruct Hr as (_ & _ & Hr). apply each_all; [exact L|].
      intros k f a Hf Ha. destruct (plan_at k f Hf) as (j & Ho & Hf').
      destruct (nth_exists _ l' j) as [b Hb]; [rewrite L'; exact (nth_below _ _ _ _ Hf')|].
      destruct (Hr j f b Hf' Hb) as (c & Hc & _). pose proof (HT f a b (nth_error_In _ _ Hf) (HR j k f a b Ho Hf Ha Hb)) as H.
      rewrite Hc in H. destruct (T f a) as [c'|]; [eauto|contradiction]. }
    destruct (each T fs l) as [r|] eqn:Er, (each T' fs' l') as [r'|] eqn:Er'; cbn [orel].
    - apply each_some in Er, Er'. destruct Er as (_ & E2 & E3), Er' as (_ & E2' & E3').
      split; [exact E2|]. split; [exact E2'|]. split.
      + intros j k f a b Ho Hf Ha Hb. destruct (plan_at k f Hf) as (j' & Ho' & Hf').
        rewrite (old_once p j' j k plan_nodup Ho' Ho) in *.
        destruct (nth_exists _ l k) as [a0 Ha0]; [rewrite L; exact (nth_below _ _ _ _ Hf)|].
        destruct (nth_exists _ l' j) as [b0 Hb0]; [rewrite L'; exact (nth_below _ _ _ _ Hf')|].
        destruct (E3 k f a0 Hf Ha0) as (c & Hc & Hc2). destruct (E3' j f b0 Hf' Hb0) as (c' & Hc' & Hc2').
        pose proof (HT f a0 b0 (nth_error_In _ _ Hf) (HR j k f a0 b0 Ho Hf Ha0 Hb0)) as H. rewrite Hc, Hc' in H. cbn in H.
        congruence.
      + intros j f b Ho Hf Hb. destruct (nth_exists _ l' j) as [b0 Hb0]; [rewrite L'; exact (nth_below _ _ _ _ Hf)|].
        destruct (E3' j f b0 Hf Hb0) as (c' & Hc' & Hc2'). destruct (HN j f b0 Ho Hf (HM j f b0 Ho Hf Hb0)) as (c & Hc & Hm).
        congruence.
    - destruct (Hfwd r eq_refl) as [r' Hx]; discriminate.
    - destruct (Hbwd r' eq_refl) as [r Hx]; discriminate.
    - exact I.
  Qed.

  Lemma upd_placed : forall B B' (R : field -> B -> B' -> Prop) (N : field -> B' -> Prop) g h l l' j k f,
    nth_error p j = Some (Some k) -> nth_error fs k = Some f -> (forall a b, R f a b -> R f (g a) (h b)) ->
    placed R N l l' -> placed R N (upd k g l) (upd j h l').
  Proof.
    intros B B' R N g h l l' j k f Ho Hf Hg (L & L' & HR & HM). unfold placed. rewrite !upd_len. split; [exact L|]. split; [exact L'|]. split.
    - intros j0 k0 f0 a b Ho0 Hf0 Ha Hb. destruct (Nat.eq_dec k0 k) as [->|Hk].
      + pose proof (old_once p j0 j k plan_nodup Ho0 Ho) as ->. assert (f0 = f) as -> by congruence.
        destruct (nth_exists _ l k) as [a0 Ha0]; [rewrite L; exact (nth_below _ _ _ _ Hf)|].
        destruct (nth_exists _ l' j) as [b0 Hb0].
        { rewrite L', plan_length. exact (nth_below _ _ _ _ Ho). }
        rewrite (upd_nth _ g l k a0 Ha0) in Ha. rewrite (upd_nth _ h l' j b0 Hb0) in Hb. inversion Ha; inversion Hb; subst.
        apply Hg. exact (HR j k f a0 b0 Ho Hf Ha0 Hb0).
      + rewrite upd_nth_other in Ha by congruence. assert (j <> j0) by congruence. rewrite upd_nth_other in Hb by assumption.
        exact (HR j0 k0 f0 a b Ho0 Hf0 Ha Hb).
    - intros j0 f0 b Ho0 Hf0 Hb. assert (j <> j0) by congruence. rewrite upd_nth_other in Hb by assumption. exact (HM j0 f0 b Ho0 Hf0 Hb).
  Qed.

  (** The field an element is for. *)
  Definition fits_label (f : field) (ns l : string) : bool :=
    (is_elem_field f && String.eqb (field_ns ra f) ns && String.eqb (field_local f) l)%bool.
  Lemma find_first : forall gs i ns l,
    match find_field ra gs i ns l with
    | Some (j, f) => exists k, j = i + k /\ nth_error gs k = Some f /\ fits_label f ns l = true /\
        forall m g, m < k -> nth_error gs m = Some g -> fits_label g ns l = false
    | None => forall g, In g gs -> fits_label g ns l = false
    end.
  Proof.
    induction gs as [|g gs IH]; intros i ns l; cbn [find_field]; [intros g []|].
    change (is_elem_field g && String.eqb (field_ns ra g) ns && String.eqb (field_local g) l)%bool with (fits_label g ns l).
    destruct (fits_label g ns l) eqn:Hg.
    - exists 0. rewrite Nat.add_0_r. repeat split; auto. intros m h Hm. lia.
    - specialize (IH (S i) ns l). destruct (find_field ra gs (S i) ns l) as [[j f]|].
      + destruct IH as (k & -> & Hk & Hf & Hm). exists (S k). repeat split; auto; [lia|].
        intros [|m] h Hlt Hh; cbn [nth_error] in *; [congruence|]. eapply Hm; [|exact Hh]. lia.
      + intros h [<-|Hh]; [exact Hg|exact (IH h Hh)].
  Qed.
  Lemma find_is : forall gs ns l k f, nth_error gs k = Some f -> fits_label f ns l = true ->
    (forall m g, m < k -> nth_error gs m = Some g -> fits_label g ns l = false) -> find_field ra gs 0 ns l = Some (k, f).
  Proof.
    intros gs ns l k f Hk Hf Hm. pose proof (find_first gs 0 ns l) as H. destruct (find_field ra gs 0 ns l) as [[j g]|].
    - destruct H as (k' & -> & Hk' & Hg & Hm'). cbn [Nat.add]. destruct (Nat.lt_trichotomy k k') as [Hlt|[->|Hlt]].
      + rewrite (Hm' k f Hlt Hk) in Hf. discriminate.
      + congruence.
      + rewrite (Hm k' g Hlt Hk') in Hg. discriminate.
    - rewrite (H f (nth_error_In _ _ Hk)) in Hf. discriminate.
  Qed.
  Lemma fits_flabel : forall f ns l, fits_label f ns l = true -> elem_field f /\ flabel ra f = (ns, l).
  Proof.
    intros f ns l H. unfold fits_label, is_elem_field in H. rewrite !andb_true_iff, !negb_true_iff in H.
    destruct H as (((H1 & H2) & H3) & H4). apply String.eqb_eq in H3, H4. split; [split; assumption|].
    rewrite <- H3, <- H4. reflexivity.
  Qed.

  Lemma find_placed : forall ns l,
    (forall j f, nth_error p j = Some None -> nth_error fs' j = Some f -> fits_label f ns l = false) ->
    match find_field ra fs 0 ns l with
    | Some (k, f) => exists j, nth_error p j = Some (Some k) /\ nth_error fs k = Some f /\ nth_error fs' j = Some f /\
        find_field ra fs' 0 ns l = Some (j, f)
    | None => find_field ra fs' 0 ns l = None
    end.
  Proof.
    intros ns l Hnew. pose proof (find_first fs 0 ns l) as H. destruct (find_field ra fs 0 ns l) as [[k f]|].
    - destruct H as (k' & -> & Hk & Hf & Hm). cbn [Nat.add] in *. destruct (plan_at k' f Hk) as (j & Ho & Hf'). exists j.
      repeat split; auto. apply find_is; [exact Hf'|exact Hf|].
      intros i g Hi Hg. destruct (fits_label g ns l) eqn:Hgl; [exfalso|reflexivity].
      destruct (plan_of i g Hg) as [[m|] Hom]; [|rewrite (Hnew i g Hom Hg) in Hgl; discriminate].
      pose proof (plan_field i _ _ Hom Hg) as Hgm. cbn in Hgm.
      destruct (Nat.lt_trichotomy m k') as [Hlt|[->|Hlt]].
      + rewrite (Hm m g Hlt Hgm) in Hgl. discriminate.
      + pose proof (old_once p i j k' plan_nodup Hom Ho). lia.
      + apply fits_flabel in Hgl, Hf. destruct Hgl as [He1 Hl1], Hf as [He2 Hl2]. apply (HK i j m k' g f Hi Hom Ho Hlt Hgm Hk He1 He2). congruence.
    - pose proof (find_first fs' 0 ns l) as H'. destruct (find_field ra fs' 0 ns l) as [[j f]|]; [exfalso|reflexivity].
      destruct H' as (j' & -> & Hj & Hf & _). destruct (plan_of j' f Hj) as [[m|] Hom]; [|rewrite (Hnew j' f Hom Hj) in Hf; discriminate].
      pose proof (plan_field j' _ _ Hom Hj) as Hgm. cbn in Hgm. rewrite (H f (nth_error_In _ _ Hgm)) in Hf. discriminate.
  Qed.

  Lemma flatten_placed : has_flatten fs' = has_flatten fs.
  Proof.
    apply eq_true_iff_eq. unfold has_flatten. rewrite !existsb_exists. split; intros (f & Hin & Hf).
    - apply In_nth_error in Hin. destruct Hin as [j Hj]. destruct (plan_of j f Hj) as [[k|] Ho].
      + exists f. split; [|exact Hf]. eapply nth_error_In. exact (plan_field j _ _ Ho Hj).
      + destruct (plan_field j _ _ Ho Hj) as [_ Hff]. unfold flat_field in Hff. congruence.
    - apply In_nth_error in Hin. destruct Hin as [k Hk]. destruct (plan_at k f Hk) as (j & _ & Hj).
      exists f. split; [|exact Hf]. eapply nth_error_In. exact Hj.
  Qed.
End Plan.

(** ** The loops over the fields, field by field *)
Definition step_one (T : field -> slot -> option slot) (step : field -> nat -> list slot -> prog (list slot)) : Prop :=
  forall f i ss, leaf (step f i ss) /\
    forall s, nth_error ss i = Some s -> ok (step f i ss) = option_map (fun s1 => upd i (fun _ => s1) ss) (T f s).
Fixpoint steps (step : field -> nat -> list slot -> prog (list slot)) (gs : list field) (i : nat) (ss : list slot) : prog (list slot) :=
  match gs with
  | [] => Ret ss
  | f :: r => let* ss' := step f i ss in steps step r (S i) ss'
  end.
Lemma upd_mid : forall A (g : A -> A) pre a r, upd (List.length pre) g (pre ++ a :: r) = pre ++ g a :: r.
Proof. induction pre as [|b pre IH]; intros a r; cbn [List.length app upd]; [reflexivity|]. rewrite IH. reflexivity. Qed.
Lemma upd_upd : forall A (g h : A -> A) l i, upd i h (upd i g l) = upd i (fun a => h (g a)) l.
Proof. intros A g h l; induction l as [|a l IH]; intros [|i]; cbn [upd]; auto. rewrite IH. reflexivity. Qed.
Lemma upd_self : forall A (l : list A) i a, nth_error l i = Some a -> upd i (fun _ => a) l = l.
Proof. induction l as [|b l IH]; intros [|i] a H; cbn [upd nth_error] in *; try discriminate; [congruence|]. rewrite (IH i a H). reflexivity. Qed.
Lemma upd_same : forall A (g h : A -> A) l i a, nth_error l i = Some a -> g a = h a -> upd i g l = upd i h l.
Proof. induction l as [|b l IH]; intros [|i] a H E; cbn [upd nth_error] in *; try discriminate; [congruence|]. rewrite (IH i a H E). reflexivity. Qed.

Lemma steps_leaf : forall T step, step_one T step -> forall gs i ss, leaf (steps step gs i ss).
Proof.
  intros T step H gs. induction gs as [|f gs IH]; intros i ss; cbn [steps]; [exact I|]. apply leaf_bind; [apply H|]. intros a. apply IH.
Qed.
Lemma steps_each : forall T step, step_one T step -> forall gs pre ss, List.length ss = List.length gs ->
  ok (steps step gs (List.length pre) (pre ++ ss)) = option_map (app pre) (each T gs ss).
Proof.
  intros T step H gs. induction gs as [|f gs IH]; intros pre [|s ss] Hl; cbn [steps each]; try discriminate; [reflexivity|].
  destruct (H f (List.length pre) (pre ++ s :: ss)) as [Hleaf Hok]. rewrite ok_bind by exact Hleaf.
  rewrite (Hok s). 2:{ rewrite nth_error_app2 by lia. rewrite Nat.sub_diag. reflexivity. }
  destruct (T f s) as [s1|]; cbn [option_map]; [|reflexivity]. rewrite upd_mid.
  replace (S (List.length pre)) with (List.length (pre ++ [s1])) by (rewrite app_length; cbn; lia).
  replace (pre ++ s1 :: ss) with ((pre ++ [s1]) ++ ss) by (rewrite <- app_assoc; reflexivity).
  rewrite IH by (cbn in Hl; lia). destruct (each T gs ss); cbn [option_map]; [|reflexivity]. rewrite <- app_assoc. reflexivity.
Qed.
Lemma steps_all : forall T step, step_one T step -> forall gs ss, List.length ss = List.length gs ->
  ok (steps step gs 0 ss) = each T gs ss.
Proof. intros T step H gs ss Hl. pose proof (steps_each T step H gs [] ss Hl) as He. cbn [List.length app] in He. rewrite He. destruct (each T gs ss); reflexivity. Qed.

Section One.
  Variables (x : ext) (E : env) (rec : nat -> prog value).

  Lemma in_leaf : forall id s, leaf (from_str_in rec id s).
  Proof. intros id s. unfold from_str_in. destruct (fst _); exact I. Qed.
  Lemma attr_leaf : forall b t, leaf (visit_attr x E rec b t).
  Proof.
    intros [s|id] t; cbn [visit_attr]; [destruct (visit_simple x s t); exact I|]. destruct (nth_error E id); [apply in_leaf|exact I].
  Qed.

  Fixpoint items1 (b : base) (items : list string) (s : slot) : option slot :=
    match items with
    | [] => Some s
    | t :: r => match ok (visit_attr x E rec b t) with Some v => items1 b r (put_slot v s) | None => None end
    end.
  Definition load0 (f : field) (t : string) (s : slot) : option slot :=
    match f_ty f with
    | TBase (BSimple SString) => Some (put_slot (VStr t) s)
    | TVec b => items1 b (split_ws t) s
    | TBase b | TOpt b | TOptVec b => option_map (fun v => put_slot v s) (ok (visit_attr x E rec b t))
    end.
  Fixpoint load1 (f : field) (attrs : list attr) (s : slot) : option slot :=
    match attrs with
    | [] => Some s
    | a :: r =>
        match (if String.eqb (n_local (at_name a)) (field_local f) then load0 f (at_value a) s else Some s) with
        | Some s1 => load1 f r s1
        | None => None
        end
    end.

  Lemma items_one : forall b i items ss, leaf (visit_attr_items x E rec b i items ss) /\
    forall s, nth_error ss i = Some s ->
      ok (visit_attr_items x E rec b i items ss) = option_map (fun s1 => upd i (fun _ => s1) ss) (items1 b items s).
  Proof.
    intros b i items. induction items as [|t r IH]; intros ss; cbn [visit_attr_items items1].
    - split; [exact I|]. intros s Hs. cbn [ok option_map]. rewrite (upd_self _ _ _ _ Hs). reflexivity.
    - split; [apply leaf_bind; [apply attr_leaf|]; intros v; apply IH|]. intros s Hs. rewrite ok_bind by apply attr_leaf.
      destruct (ok (visit_attr x E rec b t)) as [v|]; [|reflexivity].
      rewrite (proj2 (IH (upd i (put_slot v) ss)) (put_slot v s) (upd_nth _ _ _ _ _ Hs)).
      destruct (items1 b r (put_slot v s)); cbn [option_map]; [|reflexivity]. rewrite upd_upd. reflexivity.
  Qed.
  Lemma load_one : forall attrs f i ss, leaf (load_attr x E rec f i attrs ss) /\
    forall s, nth_error ss i = Some s ->
      ok (load_attr x E rec f i attrs ss) = option_map (fun s1 => upd i (fun _ => s1) ss) (load1 f attrs s).
  Proof.
    induction attrs as [|a r IH]; intros f i ss; cbn [load_attr load1].
    - split; [exact I|]. intros s Hs. cbn [ok option_map]. rewrite (upd_self _ _ _ _ Hs). reflexivity.
    - set (p := if String.eqb _ _ then _ else _).
      assert (Hp : leaf p /\ forall s, nth_error ss i = Some s -> ok p = option_map (fun s1 => upd i (fun _ => s1) ss)
        (if String.eqb (n_local (at_name a)) (field_local f) then load0 f (at_value a) s else Some s)).
      { unfold p. destruct (String.eqb _ _).
        - assert (Hb : forall b, leaf (let* v := visit_attr x E rec b (at_value a) in Ret (upd i (put_slot v) ss)) /\
            forall s, nth_error ss i = Some s ->
              ok (let* v := visit_attr x E rec b (at_value a) in Ret (upd i (put_slot v) ss)) =
              option_map (fun s1 => upd i (fun _ => s1) ss) (option_map (fun v => put_slot v s) (ok (visit_attr x E rec b (at_value a))))).
          { intros b. split; [apply leaf_bind; [apply attr_leaf|intros v; exact I]|]. intros s Hs. rewrite ok_bind by apply attr_leaf.
            destruct (ok (visit_attr x E rec b (at_value a))) as [v|]; cbn [option_map ok]; [|reflexivity].
            f_equal. eapply upd_same; [exact Hs|reflexivity]. }
          assert (Hs : leaf (Ret (upd i (put_slot (VStr (at_value a))) ss)) /\ forall s, nth_error ss i = Some s ->
            ok (Ret (upd i (put_slot (VStr (at_value a))) ss)) = option_map (fun s1 => upd i (fun _ => s1) ss) (Some (put_slot (VStr (at_value a)) s))).
          { split; [exact I|]. intros s Hs. cbn [ok option_map]. f_equal. eapply upd_same; [exact Hs|reflexivity]. }
          unfold load0. destruct (f_ty f) as [[[]|]|b|b|b]; try apply Hb; try exact Hs. apply items_one.
        - split; [exact I|]. intros s Hs. cbn [ok option_map]. rewrite (upd_self _ _ _ _ Hs). reflexivity. }
      clearbody p. destruct Hp as [Hl Ho]. split; [apply leaf_bind; [exact Hl|]; intros s; apply IH|]. intros s Hs. rewrite ok_bind by exact Hl.
      rewrite (Ho s Hs). destruct (if String.eqb _ _ then _ else _) as [s1|]; cbn [option_map]; [|reflexivity].
      rewrite (proj2 (IH f i (upd i (fun _ => s1) ss)) s1 (upd_nth _ _ _ _ _ Hs)).
      destruct (load1 f r s1); cbn [option_map]; [|reflexivity]. rewrite upd_upd. reflexivity.
  Qed.
  Definition loadT (attrs : list attr) (f : field) (s : slot) : option slot :=
    if ya_attribute (f_attrs f) then load1 f attrs s else Some s.
  Definition load_step (attrs : list attr) (f : field) (i : nat) (ss : list slot) : prog (list slot) :=
    if ya_attribute (f_attrs f) then load_attr x E rec f i attrs ss else Ret ss.
  Lemma load_steps : forall attrs gs i ss, load_attrs x E rec gs i attrs ss = steps (load_step attrs) gs i ss.
  Proof.
    intros attrs gs. induction gs as [|f gs IH]; intros i ss; cbn [load_attrs steps]; [reflexivity|].
    change (if ya_attribute (f_attrs f) then load_attr x E rec f i attrs ss else Ret ss) with (load_step attrs f i ss).
    assert (Hl : leaf (load_step attrs f i ss)) by (unfold load_step; destruct (ya_attribute (f_attrs f)); [apply load_one|exact I]).
    destruct (load_step attrs f i ss); try contradiction; cbn [bind]; auto.
  Qed.
  Lemma load_step_one : forall attrs, step_one (loadT attrs) (load_step attrs).
  Proof.
    intros attrs f i ss. unfold loadT, load_step. destruct (ya_attribute (f_attrs f)); [apply load_one|].
    split; [exact I|]. intros s Hs. cbn [ok option_map]. rewrite (upd_self _ _ _ _ Hs). reflexivity.
  Qed.

  Definition flatT (t : string) (f : field) (s : slot) : option slot :=
    if flat_field f then
      match f_ty f with
      | TBase (BUser id) => option_map (fun v => SOne (Some v)) (ok (from_str_in rec id t))
      | TOpt (BUser id) => match from_str_in rec id t with
                           | Ret v => Some (SOne (Some v))
                           | Throw _ => Some (SOne None)
                           | _ => None
                           end
      | _ => None
      end
    else Some s.
  Definition flat_step (t : string) (f : field) (i : nat) (ss : list slot) : prog (list slot) :=
    if flat_field f then
      match f_ty f with
      | TBase (BUser id) => let* v := from_str_in rec id t in Ret (upd i (fun _ => SOne (Some v)) ss)
      | TOpt (BUser id) =>
          let* r := attempt (from_str_in rec id t) in
          Ret (upd i (fun _ => SOne (match r with Ok v => Some v | Er _ => None end)) ss)
      | _ => Crash "flatten is not implemented"
      end
    else Ret ss.
  Lemma flat_step_one : forall t, step_one (flatT t) (flat_step t).
  Proof.
    intros t f i ss. unfold flatT, flat_step. destruct (flat_field f).
    - destruct (f_ty f) as [[s|id]|[s|id]|b|b]; try (split; [exact I|intros; reflexivity]);
        pose proof (in_leaf id t) as Hl; destruct (from_str_in rec id t); try contradiction;
        (split; [exact I|intros; reflexivity]).
    - split; [exact I|]. intros s Hs. cbn [ok option_map]. rewrite (upd_self _ _ _ _ Hs). reflexivity.
  Qed.
  Lemma flat_steps : forall t gs i ss, visit_flatten rec gs i t ss = steps (flat_step t) gs i ss.
  Proof.
    intros t gs. induction gs as [|f gs IH]; intros i ss; cbn [visit_flatten steps]; [reflexivity|].
    change (bind (flat_step t f i ss) (fun ss' => visit_flatten rec gs (S i) t ss') = bind (flat_step t f i ss) (fun ss' => steps (flat_step t) gs (S i) ss')).
    pose proof (proj1 (flat_step_one t f i ss)) as Hl. destruct (flat_step t f i ss); try contradiction; cbn [bind]; auto.
  Qed.
End One.

Lemma text_each : forall t fs ss, List.length ss = List.length fs ->
  each (fun f s => Some (set_text1 t f s)) fs ss = Some (set_text t fs ss).
Proof.
  intros t fs. induction fs as [|f fs IH]; intros [|s ss] Hl; try discriminate; [reflexivity|]. cbn [each set_text].
  rewrite IH by (cbn in Hl; lia). reflexivity.
Qed.
Definition built (x : ext) (tn : string) (f : field) (s : slot) : option value :=
  match build1 x tn f s with Ok v => Some v | Er _ => None end.
Lemma build_each : forall x tn fs ss, List.length ss = List.length fs ->
  each (built x tn) fs ss = match build x tn fs ss with Ok l => Some l | Er _ => None end.
Proof.
  intros x tn fs. induction fs as [|f fs IH]; intros [|s ss] Hl; try discriminate; [reflexivity|]. cbn [each build].
  unfold built at 1. destruct (build1 x tn f s); [|reflexivity]. rewrite IH by (cbn in Hl; lia).
  destruct (build x tn fs ss); reflexivity.
Qed.

(** ** Reading with the two definitions *)
Section Move.
  Variables (x : ext) (dv : string -> value) (P : nat -> plan) (E E' : env).
  Notation x' := (with_defaults x dv).
  Hypothesis HE : rearranged x' P E E'.
  Hypothesis HD : defaults_moved x x' P E E'.
  Hypothesis HK : keeps_orders P E.
  Hypothesis HO : no_flattened_option E.
  Notation mv := (moved x' P E E').
  Notation mb := (moved_base x' P E E').

  Lemma moved_snoc : forall b l l' v w, moved_list x' P E E' b l l' -> mb b v w -> moved_list x' P E E' b (l ++ [v]) (l' ++ [w]).
  Proof.
    intros b l. induction l as [|a l IH]; intros l' v w Hl Hv; inversion Hl; subst; cbn [app].
    - constructor; [exact Hv|constructor].
    - constructor; [assumption|]. apply IH; assumption.
  Qed.

  (** Slots of a field in the two definitions. *)
  Definition slot1 (f : field) (s s' : slot) : Prop :=
    match s, s' with
    | SOne o, SOne o' => (forall b, f_ty f <> TVec b) /\ orel (mb (fbase (f_ty f))) o o'
    | SMany l, SMany l' => (exists b, f_ty f = TVec b) /\ moved_list x' P E E' (fbase (f_ty f)) l l'
    | _, _ => False
    end.
  Definition fresh (f : field) (s : slot) : Prop := s = init_slot (f_ty f).
  Lemma put_slot1 : forall f s s' v w, mb (fbase (f_ty f)) v w -> slot1 f s s' -> slot1 f (put_slot v s) (put_slot w s').
  Proof.
    intros f [o|l] [o'|l'] v w Hv H; cbn [slot1 put_slot] in *; try contradiction.
    - split; [apply H|exact Hv].
    - split; [apply H|]. apply moved_snoc; [apply H|exact Hv].
  Qed.

  Lemma moved_fields_of : forall q gs l l', List.length gs = List.length q -> List.length l' = List.length q ->
    (forall j o f w, nth_error q j = Some o -> nth_error gs j = Some f -> nth_error l' j = Some w ->
       match o with
       | Some k => exists v, nth_error l k = Some v /\ moved_item x' P E E' (f_ty f) v w
       | None => missing_value x' f = Some w
       end) -> moved_fields x' P E E' q gs l l'.
  Proof.
    induction q as [|o q IH]; intros [|f gs] l [|w l'] H1 H2 H; try discriminate; [constructor|].
    assert (Hr : moved_fields x' P E E' q gs l l').
    { apply IH; [cbn in H1; lia|cbn in H2; lia|]. intros j. exact (H (S j)). }
    pose proof (H 0 o f w eq_refl eq_refl eq_refl) as H0. destruct o as [k|].
    - destruct H0 as (v & Hv & Hm). econstructor; eassumption.
    - constructor; assumption.
  Qed.

  Lemma built_one : forall id td fs f tn tn' s s', struct_type E id td fs -> In f fs -> slot1 f s s' ->
    orel (moved_item x' P E E' (f_ty f)) (built x tn f s) (built x' tn' f s').
  Proof.
    intros id td fs f tn tn' s s' Hst Hin H. unfold built, build1. pose proof (proj1 HD id td fs f) as Hd.
    destruct s as [o|l], s' as [o'|l']; cbn [slot1] in H; try contradiction; destruct H as [Hty H]; destruct (f_ty f) as [b|b|b|b] eqn:Hf; cbn [fbase] in *;
      try (exfalso; eapply Hty; reflexivity); try (destruct Hty as [? Hty]; discriminate Hty);
      try (destruct o as [v|], o' as [w|]; cbn [orel] in *; try contradiction); cbn [orel]; try (constructor; exact H); try constructor.
    destruct (ya_default (f_attrs f)) as [d|] eqn:Hdf; cbn [orel]; [|exact I]. constructor. eapply Hd; eauto.
  Qed.
  Lemma built_new : forall f tn s, missing_value x' f <> None -> fresh f s ->
    exists w, built x' tn f s = Some w /\ missing_value x' f = Some w.
  Proof.
    intros f tn s Hm ->. unfold built, build1, missing_value in *. destruct (f_ty f); cbn [init_slot] in *; try (eexists; split; reflexivity).
    destruct (ya_default (f_attrs f)); [eexists; split; reflexivity|congruence].
  Qed.
  Lemma text_one : forall t f s s', slot1 f s s' -> slot1 f (set_text1 t f s) (set_text1 t f s').
  Proof.
    intros t f s s' H. unfold set_text1. destruct (ya_text (f_attrs f)); [|exact H].
    destruct (f_ty f) as [[[]|]|[[]|]|b|b] eqn:Hf; try exact H; cbn [slot1]; rewrite Hf; (split; [discriminate|]).
    - constructor.
    - destruct (is_empty t); cbn [orel]; constructor.
  Qed.

  (** ** Programs *)
  Lemma simple_x : forall s t, visit_simple x' s t = visit_simple x s t.
  Proof. intros s t. destruct s; reflexivity. Qed.

  Lemma names_same : forall id td td', nth_error E id = Some td -> nth_error E' id = Some td' ->
    t_name td' = t_name td /\ t_attrs td' = t_attrs td.
  Proof. intros id td td' H H'. pose proof (HE id) as Hi. rewrite H, H' in Hi. destruct Hi as (H1 & H2 & _). auto. Qed.

  (** Enums, for any documents for which their payloads are alike. *)
  Section Enum.
    Variables (rec rec' : nat -> prog value) (Q : event -> Prop) (id0 : nat) (td0 : typedef) (vs : list variant) (df : value).
    Hypothesis QE : Q EEndDoc.
    Hypothesis Hn0 : nth_error E id0 = Some td0.
    Hypothesis Hb0 : t_body td0 = DEnum vs df.
    Hypothesis Hpay : forall v fl t id, In v vs -> v_body v = VbNew fl t -> fbase t = BUser id -> sim Q (mv id) (rec id) (rec' id).

    Inductive read1 : value -> value -> Prop :=
    | read_unit : forall i u, nth_error vs i = Some u -> v_body u = VbUnit -> read1 (VVar i []) (VVar i [])
    | read_new : forall i u b t v w, nth_error vs i = Some u -> v_body u = VbNew b t -> moved_item x' P E E' t v w ->
        read1 (VVar i [v]) (VVar i [w]).
    Definition crel (c c' : option value) : Prop := orel read1 c c'.
    Definition arel (r r' : option value * bool) : Prop := crel (fst r) (fst r') /\ snd r' = snd r.

    Lemma find_variant_at : forall us i nm j b, find_variant us i nm = Some (j, b) ->
      exists k u, j = i + k /\ nth_error us k = Some u /\ b = v_body u.
    Proof.
      induction us as [|u us IH]; intros i nm j b H; cbn [find_variant] in H; [discriminate|].
      assert (Hl : find_variant us (S i) nm = Some (j, b) -> exists k w, j = i + k /\ nth_error (u :: us) k = Some w /\ b = v_body w).
      { intros H0. destruct (IH _ _ _ _ H0) as (k & w & Hk & Hr). exists (S k), w. split; [lia|exact Hr]. }
      destruct (v_body u) eqn:Hu; try (destruct (String.eqb _ nm)); try (exact (Hl H)); inversion H; subst;
        exists 0, u; rewrite Nat.add_0_r; auto.
    Qed.

    Lemma payload_sim : forall i u b t v w c c', nth_error vs i = Some u -> v_body u = VbNew b t -> mb (fbase t) v w -> crel c c' ->
      sim Q crel (set_payload t i v c) (set_payload t i w c').
    Proof.
      intros i u b t v w c c' Hu Hb Hv Hc.
      assert (Hr : forall a a', moved_item x' P E E' t a a' -> sim Q crel (Ret (Some (VVar i [a]))) (Ret (Some (VVar i [a'])))).
      { intros a a' Ha. apply sim_ret. cbn [crel orel]. eapply read_new; eassumption. }
      destruct t as [q|q|q|q]; cbn [set_payload fbase] in *; try (apply Hr; constructor; assumption).
      destruct c as [c|], c' as [c'|]; try contradiction; cbn [crel orel] in Hc.
      - inversion Hc as [j z Hz Hz'|j z d r a a' Hz Hd Ha]; subst; [apply sim_throw|].
        destruct (Nat.eq_dec i j) as [<-|Hij].
        + rewrite Hu in Hz. inversion Hz; subst z. rewrite Hb in Hd. inversion Hd; subst r d.
          inversion Ha; subst. rewrite Nat.eqb_refl. apply Hr. constructor. apply moved_snoc; assumption.
        + apply Nat.eqb_neq in Hij. rewrite Hij. destruct a, a'; apply sim_throw.
      - apply Hr. constructor. constructor; [exact Hv|constructor].
    Qed.

    Lemma arm_sim : forall i u c c', nth_error vs i = Some u -> crel c c' ->
      sim Q arel (enum_arm x rec i (v_body u) c) (enum_arm x' rec' i (v_body u) c').
    Proof.
      intros i u c c' Hu Hc. destruct (v_body u) as [|fl t|gs] eqn:Hvb; cbn [enum_arm].
      - apply sim_ret. split; [|reflexivity]. cbn [fst crel orel]. eapply read_unit; eassumption.
      - destruct (fbase t) as [s|id] eqn:Hbt.
        + replace (read_payload x' s) with (read_payload x s) by (destruct s; reflexivity).
          apply sim_then. intros r. destruct r as [v|]; [|apply sim_ret; split; [exact Hc|reflexivity]].
          eapply sim_bind with (R := crel); [|intros d d' Hd; apply sim_ret; split; [exact Hd|reflexivity]].
          eapply payload_sim; try eassumption. rewrite Hbt. constructor.
        + eapply sim_bind; [eapply Hpay; try eassumption; eapply nth_error_In; exact Hu|]. intros v w HR.
          eapply sim_bind with (R := crel); [|intros d d' Hd; apply sim_next; intros _; apply sim_ret; split; [exact Hd|reflexivity]].
          eapply payload_sim; try eassumption. rewrite Hbt. constructor. exact HR.
      - apply sim_ret. split; [exact Hc|reflexivity].
    Qed.

    Lemma enum_loop_sim : forall td td', t_attrs td' = t_attrs td -> forall fl ln sd c c', crel c c' ->
      sim Q crel (enum_loop x rec fl td vs ln sd c) (enum_loop x' rec' fl td' vs ln sd c').
    Proof.
      intros td td' Hta fl. induction fl as [|fl IH]; intros ln sd c c' Hc; cbn [enum_loop]; [apply sim_stuck|]. rewrite Hta.
      assert (Harm : forall nm d d' (q q' : prog (option value * bool)), crel d d' -> sim Q arel q q' ->
        sim Q arel (match find_variant vs 0 nm with Some (i, b) => enum_arm x rec i b d | None => q end)
                (match find_variant vs 0 nm with Some (i, b) => enum_arm x' rec' i b d' | None => q' end)).
      { intros nm d d' q q' Hd Hq. destruct (find_variant vs 0 nm) as [[i b]|] eqn:Hfind; [|exact Hq].
        destruct (find_variant_at _ _ _ _ _ Hfind) as (k & u & Hk & Hu & ->). cbn [Nat.add] in Hk. subst k. apply arm_sim; assumption. }
      apply sim_peek_; [exact QE|]. intros e He. destruct e; try apply sim_throw.
      - destruct (ya_flatten (t_attrs td)); [apply sim_ret; exact Hc|apply sim_throw].
      - apply sim_then. intros nm. apply sim_bind with (R := arel).
        + apply Harm; [exact Hc|]. apply sim_next. intros _. apply sim_ret. split; [exact Hc|reflexivity].
        + intros [d b] [d' b'] [Hd Hb]. cbn [fst snd] in *. subst b'. destruct b; [apply sim_ret; exact Hd|].
          apply sim_then. intros e2. destruct e2; try (apply IH; exact Hd).
          apply sim_bind with (R := arel); [apply Harm; [exact Hd|apply sim_ret; split; [exact Hd|reflexivity]]|].
          intros [d2 b2] [d2' b2'] [Hd2 Hb2]. cbn [fst snd] in *. subst b2'. destruct b2; [apply sim_ret; exact Hd2|apply IH; exact Hd2].
      - apply sim_depth. intros d. destruct (_ && _)%bool; [apply sim_ret; exact Hc|]. apply sim_next. intros _. apply IH. exact Hc.
      - apply sim_next. intros _. apply IH. exact Hc.
    Qed.

    Lemma enum_sim : forall fuel td' df', nth_error E' id0 = Some td' -> t_body td' = DEnum vs df' ->
      sim Q (mv id0) (de_enum x rec fuel td0 vs df) (de_enum x' rec' fuel td' vs df').
    Proof.
      intros fuel td' df' Hn' Hb'. destruct (names_same _ _ _ Hn0 Hn') as [Hn Ha]. unfold de_enum. rewrite Ha.
      assert (Hroot : de_root td' = de_root td0) by (unfold de_root; rewrite Ha, Hn; reflexivity). rewrite Hroot.
      apply sim_then. intros e. destruct (match e with EStart _ _ _ => _ | _ => _ end) as [ln sns].
      apply sim_depth. intros d. destruct (namespace_check _ _ _ _); [apply sim_throw|].
      eapply sim_bind with (R := crel); [apply enum_loop_sim; auto; exact I|].
      intros c c' Hc. apply sim_ret. destruct c as [v|], c' as [w|]; try contradiction; cbn [crel orel] in Hc.
      - destruct Hc as [i u Hu Hub|i u b t v w Hu Hub Hk]; [eapply m_unit|eapply m_variant]; eassumption.
      - eapply (proj2 HD); eassumption.
    Qed.
  End Enum.

  Lemma prim_sim : forall Q id td td' k, nth_error E id = Some td -> nth_error E' id = Some td' -> t_body td = DPrim k ->
    sim Q (mv id) (de_prim x td k) (de_prim x' td' k).
  Proof.
    intros Q id td td' k H H' Hk. destruct (names_same _ _ _ H H') as [Hn Ha].
    replace (de_prim x' td' k) with (de_prim x td k) by (unfold de_prim; rewrite Hn; destruct k; reflexivity).
    eapply sim_imp; [|apply sim_same]. intros a b <-. eapply m_prim; eassumption.
  Qed.

  Section Body.
    Variables (rec rec' : nat -> prog value) (fuel : nat) (Q : event -> Prop).
    Hypothesis QE : Q EEndDoc.
    Hypothesis Qnew : forall e, Q e -> nothing_new P E' e.
    Hypothesis Hrec : forall id, sim Q (mv id) (rec id) (rec' id).
    Hypothesis Hattr : forall id td fs f t, struct_type E id td fs -> In f fs -> ya_attribute (f_attrs f) = true ->
      orel (mb (fbase (f_ty f))) (ok (visit_attr x E rec (fbase (f_ty f)) t)) (ok (visit_attr x' E' rec' (fbase (f_ty f)) t)).
    Hypothesis Hflat : forall id td fs f i t, struct_type E id td fs -> In f fs -> flat_field f = true -> f_ty f = TBase (BUser i) ->
      orel (mv i) (ok (from_str_in rec i t)) (ok (from_str_in rec' i t)).

    Section Struct.
      Variables (id0 : nat) (td td' : typedef) (fs fs' : list field).
      Hypothesis Hst : struct_type E id0 td fs.
      Hypothesis Hst' : struct_type E' id0 td' fs'.
      Hypothesis Hta : t_attrs td' = t_attrs td.
      Hypothesis Htn : t_name td' = t_name td.
      Notation p := (P id0).
      Hypothesis HF : rearranged_fields x' p fs fs'.
      Notation Sl := (placed p fs fs' slot1 fresh).

      Lemma new_not : forall e j f, Q e -> nth_error p j = Some None -> nth_error fs' j = Some f -> ~ supplies (t_attrs td) f e.
      Proof. intros e j f He Ho Hf. rewrite <- Hta. exact (Qnew e He id0 td' fs' j f Hst' Ho Hf). Qed.

      Lemma init_placed : Sl (map (fun f => init_slot (f_ty f)) fs) (map (fun f => init_slot (f_ty f)) fs').
      Proof.
        unfold placed. rewrite !map_length. split; [reflexivity|]. split; [reflexivity|]. split.
        - intros j k f a b Ho Hf Ha Hb. pose proof Hf as Hf0. apply (map_nth_error (fun f => init_slot (f_ty f))) in Hf0. rewrite Ha in Hf0. inversion Hf0; subst a.
          destruct (plan_at _ _ _ _ HF k f Hf) as (j' & Ho' & Hf').
          rewrite (old_once _ _ _ _ (plan_nodup _ _ _ _ HF) Ho' Ho) in Hf'.
          apply (map_nth_error (fun f => init_slot (f_ty f))) in Hf'. rewrite Hb in Hf'. inversion Hf'; subst b.
          destruct (f_ty f) eqn:Hty; cbn [init_slot slot1]; rewrite Hty; try (split; [discriminate|exact I]). split; [eauto|constructor].
        - intros j f b Ho Hf Hb. apply (map_nth_error (fun f => init_slot (f_ty f))) in Hf. rewrite Hb in Hf. inversion Hf. reflexivity.
      Qed.

      (** Attributes. *)
      Lemma items1_rel : forall f l s s', In f fs -> ya_attribute (f_attrs f) = true -> slot1 f s s' ->
        orel (slot1 f) (items1 x E rec (fbase (f_ty f)) l s) (items1 x' E' rec' (fbase (f_ty f)) l s').
      Proof.
        intros f l. induction l as [|t l IH]; intros s s' Hin Ha Hs; cbn [items1]; [exact Hs|].
        pose proof (Hattr id0 td fs f t Hst Hin Ha) as H.
        destruct (ok (visit_attr x E rec _ t)) as [v|], (ok (visit_attr x' E' rec' _ t)) as [w|]; cbn [orel] in H; try contradiction; [|exact I].
        apply IH; auto. apply put_slot1; assumption.
      Qed.
      Lemma load0_rel : forall f t s s', In f fs -> ya_attribute (f_attrs f) = true -> slot1 f s s' ->
        orel (slot1 f) (load0 x E rec f t s) (load0 x' E' rec' f t s').
      Proof.
        intros f t s s' Hin Ha Hs. unfold load0. pose proof (Hattr id0 td fs f t Hst Hin Ha) as H.
        pose proof (items1_rel f (split_ws t) s s' Hin Ha Hs) as Hi.
        assert (Hp : forall v w, mb (fbase (f_ty f)) v w -> slot1 f (put_slot v s) (put_slot w s')) by (intros; apply put_slot1; assumption).
        destruct (f_ty f) as [[[]|]|b|b|b]; cbn [fbase] in *;
          try exact Hi; try (apply Hp; constructor);
          (destruct (ok (visit_attr x E rec _ t)) as [v|], (ok (visit_attr x' E' rec' _ t)) as [w|]; cbn [orel option_map] in *; try contradiction; auto).
      Qed.
      Lemma load1_rel : forall attrs f s s', In f fs -> ya_attribute (f_attrs f) = true -> slot1 f s s' ->
        orel (slot1 f) (load1 x E rec f attrs s) (load1 x' E' rec' f attrs s').
      Proof.
        induction attrs as [|a r IH]; intros f s s' Hin Ha Hs; cbn [load1]; [exact Hs|].
        destruct (String.eqb _ _); [|apply IH; assumption].
        pose proof (load0_rel f (at_value a) s s' Hin Ha Hs) as H.
        destruct (load0 x E rec f _ s), (load0 x' E' rec' f _ s'); cbn [orel] in H; try contradiction; [apply IH; assumption|exact I].
      Qed.
      Lemma load1_none : forall f attrs s, (forall a, In a attrs -> n_local (at_name a) <> field_local f) ->
        load1 x' E' rec' f attrs s = Some s.
      Proof.
        intros f attrs s. induction attrs as [|a r IH]; intros H; cbn [load1]; [reflexivity|].
        destruct (String.eqb_spec (n_local (at_name a)) (field_local f)) as [e|_]; [destruct (H a (or_introl eq_refl) e)|].
        apply IH. intros b Hb. apply H. right. exact Hb.
      Qed.

      Lemma loads_sim : forall n attrs m ss ss', Q (EStart n attrs m) -> Sl ss ss' ->
        sim Q Sl (load_attrs x E rec fs 0 attrs ss) (load_attrs x' E' rec' fs' 0 attrs ss').
      Proof.
        intros n attrs m ss ss' HQ HS. rewrite !load_steps. apply sim_leaf; try (eapply steps_leaf; apply load_step_one).
        rewrite (steps_all _ _ (load_step_one x E rec attrs)) by apply HS.
        rewrite (steps_all _ _ (load_step_one x' E' rec' attrs)) by apply HS.
        eapply (each_placed _ _ _ _ HF); [| |exact HS].
        - intros f a b Hin Hab. unfold loadT. destruct (ya_attribute (f_attrs f)) eqn:Ha; [apply load1_rel; assumption|exact Hab].
        - intros j f b Ho Hf Hb. pose proof (new_not _ _ _ HQ Ho Hf) as Hns. unfold loadT, supplies in *.
          destruct (ya_attribute (f_attrs f)) eqn:Ha; [|exists b; auto]. exists b. split; [|exact Hb].
          apply load1_none. intros a Hin Hal. apply Hns. exists a. auto.
      Qed.

      Lemma flatten_sim : forall t ss ss', Sl ss ss' -> sim Q Sl (visit_flatten rec fs 0 t ss) (visit_flatten rec' fs' 0 t ss').
      Proof.
        intros t ss ss' HS. rewrite !flat_steps. apply sim_leaf; try (eapply steps_leaf; apply flat_step_one).
        rewrite (steps_all _ _ (flat_step_one rec t)) by apply HS. rewrite (steps_all _ _ (flat_step_one rec' t)) by apply HS.
        eapply (each_placed _ _ _ _ HF); [| |exact HS].
        - intros f a b Hin Hab. unfold flatT. destruct (flat_field f) eqn:Hff; [|exact Hab].
          pose proof (Hflat id0 td fs f) as Hfl. destruct (f_ty f) as [[s|i]|[s|i]|q|q] eqn:Hty; try exact I.
          + specialize (Hfl i t Hst Hin Hff eq_refl).
            destruct (ok (from_str_in rec i t)), (ok (from_str_in rec' i t)); cbn [orel option_map] in *; try contradiction; [|exact I].
            cbn [slot1]. rewrite Hty. split; [discriminate|]. constructor. exact Hfl.
          + exfalso. unfold flat_field in Hff. apply andb_prop in Hff. destruct Hff as [Hc1 Hc2]. apply negb_true_iff in Hc1.
            refine (HO td fs f (BUser i) _ (proj2 Hst) Hin Hc1 Hc2 Hty). eapply nth_error_In. apply Hst.
        - intros j f b Ho Hf Hb. destruct (plan_field _ _ _ _ HF j _ _ Ho Hf) as [_ Hff]. unfold flatT. rewrite Hff. exists b. auto.
      Qed.

      Lemma text_placed : forall t ss ss', Q (EChars t) -> Sl ss ss' -> Sl (set_text t fs ss) (set_text t fs' ss').
      Proof.
        intros t ss ss' HQ HS.
        assert (H : orel Sl (each (fun f s => Some (set_text1 t f s)) fs ss) (each (fun f s => Some (set_text1 t f s)) fs' ss')).
        { eapply (each_placed _ _ _ _ HF); [| |exact HS].
          - intros f a b _ Hab. cbn [orel]. apply text_one. exact Hab.
          - intros j f b Ho Hf Hb. exists b. split; [|exact Hb]. pose proof (new_not _ _ _ HQ Ho Hf) as Hns. cbn [supplies] in Hns.
            unfold set_text1. destruct (ya_text (f_attrs f)); [congruence|reflexivity]. }
        rewrite (text_each t fs ss) in H by apply HS. rewrite (text_each t fs' ss') in H by apply HS. exact H.
      Qed.

      Lemma put_placed : forall j k f v w ss ss', nth_error p j = Some (Some k) -> nth_error fs k = Some f -> mb (fbase (f_ty f)) v w ->
        Sl ss ss' -> Sl (upd k (put_slot v) ss) (upd j (put_slot w) ss').
      Proof.
        intros j k f v w ss ss' Ho Hf Hv HS. eapply (upd_placed _ _ _ _ HF); try eassumption. intros a b. apply put_slot1. exact Hv.
      Qed.

      Lemma arm_struct_sim : forall j k f id d ss ss', nth_error p j = Some (Some k) -> nth_error fs k = Some f ->
        fbase (f_ty f) = BUser id -> Sl ss ss' -> sim Q Sl (arm_struct rec k id d ss) (arm_struct rec' j id d ss').
      Proof.
        intros j k f id d ss ss' Ho Hf Hb HS. unfold arm_struct.
        assert (Hgo : sim Q Sl (Peek (fun r => match r with
          | Ok (EStart _ _ _) => let* v := rec id in next_ ;; Ret (upd k (put_slot v) ss) | _ => Ret ss end))
          (Peek (fun r => match r with
          | Ok (EStart _ _ _) => let* v := rec' id in next_ ;; Ret (upd j (put_slot v) ss') | _ => Ret ss' end))).
        { apply sim_peek. intros r. destruct r as [e|]; [|apply sim_ret; exact HS]. destruct e; try (apply sim_ret; exact HS).
          eapply sim_bind; [apply Hrec|]. intros v w HR. apply sim_then. intros _. apply sim_ret.
          eapply put_placed; try eassumption. rewrite Hb. constructor. exact HR. }
        destruct (Z.eqb d 0); [|exact Hgo]. apply sim_next. intros _. exact Hgo.
      Qed.
      Lemma arm_simple_sim : forall j k f s n ss ss', nth_error p j = Some (Some k) -> nth_error fs k = Some f ->
        fbase (f_ty f) = BSimple s -> Sl ss ss' ->
        sim Q Sl (arm_simple x (t_attrs td) k f s n ss) (arm_simple x' (t_attrs td) j f s n ss').
      Proof.
        intros j k f s n ss ss' Ho Hf Hb HS. unfold arm_simple.
        replace (visit_simple x' s) with (visit_simple x s) by (destruct s; reflexivity).
        destruct (namespace_check _ _ _ _); [apply sim_throw|]. apply sim_then. intros r. destruct r as [v|]; apply sim_ret; [|exact HS].
        eapply put_placed; try eassumption. rewrite Hb. constructor.
      Qed.

      Definition lrel (st st' : lstate) : Prop :=
        Sl (l_slots st) (l_slots st') /\ l_unused st' = l_unused st /\ l_depth st' = l_depth st.
      Lemma loop_sim : forall fl ln sd st st', lrel st st' ->
        sim Q lrel (struct_loop x E rec fuel fl td fs ln sd st) (struct_loop x' E' rec' fuel fl td' fs' ln sd st').
      Proof.
        intros fl. induction fl as [|fl IH]; intros ln sd st st' (HS & HU & HDp); cbn [struct_loop]; [apply sim_stuck|].
        assert (Hroot : de_root td' = de_root td) by (unfold de_root; rewrite Hta, Htn; reflexivity).
        assert (Hrns : de_root_ns td' = de_root_ns td) by (unfold de_root_ns; rewrite Hta; reflexivity).
        rewrite Hta, Hroot, Hrns, HU, HDp.
        assert (Hl : forall ss ss' u d, Sl ss ss' -> lrel (LState ss u d) (LState ss' u d)) by (intros; split; [assumption|split; reflexivity]).
        apply sim_peek_; [exact QE|]. intros e He. destruct e; try apply sim_throw.
        - destruct (ya_flatten (t_attrs td)); [apply sim_ret; split; [exact HS|split; assumption]|]. apply IH. split; [exact HS|split; assumption].
        - apply sim_bind with (R := lrel).
          + destruct (_ && _)%bool.
            { apply sim_then. intros ev. apply sim_then. intros u. apply sim_ret. apply Hl. exact HS. }
            pose proof (find_placed _ _ _ _ _ HF (HK _ _ _ Hst) (opt_default "" (n_ns n)) (n_local n)) as Hfind.
            assert (Hnew : forall j f, nth_error p j = Some None -> nth_error fs' j = Some f ->
              fits_label (t_attrs td) f (opt_default "" (n_ns n)) (n_local n) = false).
            { intros j f Ho Hf. pose proof (new_not _ _ _ He Ho Hf) as Hns. destruct (fits_label _ f _ _) eqn:Hfit; [exfalso|reflexivity].
              apply fits_flabel in Hfit. destruct Hfit as [[Ha _] Hfl]. cbn [supplies] in Hns. rewrite Ha in Hns. apply Hns.
              rewrite Hfl. reflexivity. }
            specialize (Hfind Hnew). destruct (find_field (t_attrs td) fs 0 _ _) as [[k f]|].
            * destruct Hfind as (j & Ho & Hf & Hf' & ->).
              apply sim_bind with (R := Sl); [|intros s s' Hs; apply sim_ret; apply Hl; exact Hs].
              destruct (fbase (f_ty f)) eqn:Hb; [eapply arm_simple_sim|eapply arm_struct_sim]; eassumption.
            * rewrite Hfind. apply sim_then. intros ev. apply sim_then. intros u. apply sim_then. intros u'. apply sim_ret. apply Hl. exact HS.
          + intros s1 s1' (HS1 & HU1 & HD1). rewrite HU1, HD1.
            apply sim_bind with (R := Sl).
            * destruct (Z.eqb (l_depth s1) 0); [|apply sim_ret; exact HS1]. eapply loads_sim; eassumption.
            * intros q q' Hq. apply IH. apply Hl. exact Hq.
        - apply sim_depth. intros d. destruct (_ && _)%bool.
          + apply sim_then. intros u. apply sim_ret. apply Hl. exact HS.
          + apply sim_then. intros ev. apply sim_then. intros u. apply IH. apply Hl. exact HS.
        - apply sim_then. intros ev. apply sim_then. intros u. apply IH. apply Hl. apply text_placed; assumption.
      Qed.

      Lemma struct_sim : sim Q (mv id0) (de_struct x E rec fuel td fs) (de_struct x' E' rec' fuel td' fs').
      Proof.
        unfold de_struct. rewrite Hta, Htn.
        assert (Hroot : de_root td' = de_root td) by (unfold de_root; rewrite Hta, Htn; reflexivity). rewrite Hroot.
        apply sim_then. intros e. destruct (match e with EStart _ _ _ => _ | _ => _ end) as [ln sns].
        apply sim_depth. intros d. destruct (if Nat.eqb d 0 then _ else _); [apply sim_throw|].
        eapply sim_bind with (R := lrel).
        - apply loop_sim. split; [exact init_placed|]. split; [|reflexivity]. cbn [l_unused]. unfold init_unused.
          rewrite (flatten_placed _ _ _ _ HF). reflexivity.
        - intros st st' (HS & HU & _). rewrite HU. apply sim_bind with (R := Sl).
          + destruct (l_unused st); cbn [visit_unused]; try (apply sim_ret; exact HS). apply flatten_sim. exact HS.
          + intros ss ss' HSS.
            assert (Hb : orel (placed p fs fs' (fun f => moved_item x' P E E' (f_ty f)) (fun f w => missing_value x' f = Some w))
              (each (built x (t_name td)) fs ss) (each (built x' (t_name td)) fs' ss')).
            { eapply (each_placed _ _ _ _ HF); [| |exact HSS].
              - intros f a b Hin Hab. eapply built_one; eassumption.
              - intros j f b Ho Hf Hb. destruct (plan_field _ _ _ _ HF j _ _ Ho Hf) as [Hm _]. apply built_new; assumption. }
            rewrite (build_each x (t_name td) fs ss) in Hb by apply HSS. rewrite (build_each x' (t_name td) fs' ss') in Hb by apply HSS.
            destruct (build x (t_name td) fs ss) as [l|], (build x' (t_name td) fs' ss') as [l'|]; cbn [orel] in Hb; try contradiction;
              cbn [of_res bind]; [|apply sim_throw].
            apply sim_ret. destruct Hb as (Hl1 & Hl2 & Hr & Hn). eapply m_struct; try eassumption.
            apply moved_fields_of; [exact (plan_length _ _ _ _ HF)|rewrite <- (plan_length _ _ _ _ HF); exact Hl2|].
            intros j o f w Ho Hf Hw. destruct o as [k|]; [|eapply Hn; eassumption].
            pose proof (plan_field _ _ _ _ HF j _ _ Ho Hf) as Hk. cbn in Hk.
            destruct (nth_exists _ l k) as [v Hv]; [rewrite Hl1; exact (nth_below _ _ _ _ Hk)|]. exists v. split; [exact Hv|].
            eapply Hr; eassumption.
      Qed.
    End Struct.

    Lemma body_sim : forall id, sim Q (mv id) (de_body x E rec fuel id) (de_body x' E' rec' fuel id).
    Proof.
      intros id. unfold de_body. pose proof (HE id) as Hi.
      destruct (nth_error E id) as [td|] eqn:Ht, (nth_error E' id) as [td'|] eqn:Ht'; try contradiction; [|apply sim_crash].
      destruct Hi as (Hn & Ha & Hb).
      destruct (t_body td) as [fs|vs df|k] eqn:Hbd, (t_body td') as [fs'|vs' df'|k'] eqn:Hbd'; try contradiction.
      - apply struct_sim; auto; split; assumption.
      - subst vs'. eapply enum_sim; eauto.
      - subst k'. eapply prim_sim; eassumption.
    Qed.
  End Body.

  (** ** All types *)
  Definition any (e : event) : Prop := True.
  Lemma in_rel : forall rec rec' id s, sim any (mv id) (rec id) (rec' id) ->
    orel (mv id) (ok (from_str_in rec id s)) (ok (from_str_in rec' id s)).
  Proof.
    intros rec rec' id s H. unfold from_str_in. rewrite !(proj1 (run_view _ _ _)).
    specialize (H (view (d_init (parse_text s))) (fun _ _ => I)).
    destruct (vrun (rec id) _) as [o v1], (vrun (rec' id) _) as [o' v1']. cbn [fst].
    destruct o, o'; cbn [ok orel] in *; try contradiction; try exact I. apply H.
  Qed.
  Lemma attr_rel : forall rec rec' b t, (forall id, b = BUser id -> sim any (mv id) (rec id) (rec' id)) ->
    orel (mb b) (ok (visit_attr x E rec b t)) (ok (visit_attr x' E' rec' b t)).
  Proof.
    intros rec rec' [s|id] t H; cbn [visit_attr].
    - rewrite simple_x. destruct (visit_simple x s t); cbn [of_res ok orel]; [constructor|exact I].
    - pose proof (HE id) as Hi. destruct (nth_error E id) as [td|], (nth_error E' id) as [td'|]; try contradiction; [|exact I].
      destruct Hi as (-> & _). pose proof (in_rel rec rec' id ("<" +++ t_name td +++ ">" +++ t +++ "</" +++ t_name td +++ ">") (H id eq_refl)) as Hr.
      destruct (ok (from_str_in rec id _)), (ok (from_str_in rec' id _)); cbn [orel] in *; try contradiction; [|exact I].
      constructor. exact Hr.
  Qed.

  (** Fields only change places: any documents. *)
  Theorem permuted_sim : (forall id, ~ In None (P id)) -> forall fuel id, sim any (mv id) (de x E fuel id) (de x' E' fuel id).
  Proof.
    intros Hp. induction fuel as [|fuel IH]; intros id; cbn [de]; [apply sim_stuck|]. apply body_sim.
    - exact I.
    - intros e _ i td fs j f _ Ho. destruct (Hp i). eapply nth_error_In. exact Ho.
    - exact IH.
    - intros. apply attr_rel. intros. apply IH.
    - intros. apply in_rel. apply IH.
  Qed.

  (** New fields, one text. *)
  Definition closed (id : nat) : Prop := forall td, nth_error E id = Some td ->
    match t_body td with DStruct _ => False | DEnum vs _ => forall v, In v vs -> v_body v = VbUnit | DPrim _ => True end.
  Lemma closed_sim : forall fuel id, closed id -> sim any (mv id) (de x E fuel id) (de x' E' fuel id).
  Proof.
    intros [|fuel] id Hc; cbn [de]; [apply sim_stuck|]. unfold de_body. pose proof (HE id) as Hi. specialize (Hc).
    destruct (nth_error E id) as [td|] eqn:Ht, (nth_error E' id) as [td'|] eqn:Ht'; try contradiction; [|apply sim_crash].
    specialize (Hc td Ht). destruct Hi as (Hn & Ha & Hb).
    destruct (t_body td) as [fs|vs df|k] eqn:Hbd, (t_body td') as [fs'|vs' df'|k'] eqn:Hbd'; try contradiction.
    - subst vs'. eapply enum_sim; eauto; [exact I|]. intros v fl t i Hv Hvb. rewrite (Hc v Hv) in Hvb. discriminate.
    - subst k'. eapply prim_sim; eassumption.
  Qed.
  Theorem grown_sim : one_text E -> forall (Q : event -> Prop), Q EEndDoc -> (forall e, Q e -> nothing_new P E' e) ->
    forall fuel id, sim Q (mv id) (de x E fuel id) (de x' E' fuel id).
  Proof.
    intros H1 Q QE Qn. induction fuel as [|fuel IH]; intros id; cbn [de]; [apply sim_stuck|]. apply body_sim.
    - exact QE.
    - exact Qn.
    - exact IH.
    - intros i td fs f t Hst Hin Ha. apply attr_rel. intros i' Hb. apply closed_sim.
      pose proof (proj2 (H1 i td fs f Hst Hin) Ha) as Hc. unfold closed_attribute in Hc.
      replace (base_of (f_ty f)) with (BUser i') in Hc by (rewrite <- Hb; destruct (f_ty f); reflexivity). exact Hc.
    - intros i td fs f i' t Hst Hin Hff. rewrite (proj1 (H1 i td fs f Hst Hin)) in Hff. discriminate.
  Qed.
End Move.

(** ** Documents *)
Lemma sim_documents : forall Q R x E x' E' fuel id s, sim Q R (de x E fuel id) (de x' E' fuel id) ->
  (forall e, In e (s_evs (parse_text s)) -> Q e) ->
  match from_str x E fuel id s, from_str x' E' fuel id s with
  | OOk v, OOk w => R v w
  | OOk _, _ => False
  | _, OOk _ => False
  | _, _ => True
  end.
Proof.
  intros Q R x E x' E' fuel id s H HQ. unfold from_str, from_events. rewrite !(proj1 (run_view _ _ _)).
  assert (Hv : all_rest Q (view (d_init (parse_text s)))).
  { intros e He. rewrite view_init in He. cbn [v_rest] in He. apply filter_In in He. apply HQ, He. }
  specialize (H _ Hv).
  destruct (vrun (de x E fuel id) _) as [o v1], (vrun (de x' E' fuel id) _) as [o' v2]. cbn [fst].
  destruct o, o'; auto; apply H.
Qed.



Lemma alike_of : forall (R : value -> value -> Prop) o o',
  match o, o' with
  | OOk v, OOk w => R v w
  | OOk _, _ => False
  | _, OOk _ => False
  | _, _ => True
  end -> (forall v, o = OOk v -> exists w, o' = OOk w /\ R v w) /\ (forall w, o' = OOk w -> exists v, o = OOk v /\ R v w).
Proof.
  intros R o o' H. split; intros v ->; [destruct o'|destruct o]; try contradiction; eauto.
Qed.

Theorem rearranged_reads : forall x d P E E' fuel id s,
  rearranged (with_defaults x d) P E E' -> defaults_moved x (with_defaults x d) P E E' -> keeps_orders P E -> no_flattened_option E ->
  (forall i, ~ In None (P i)) \/ (one_text E /\ forall e, In e (s_evs (parse_text s)) -> nothing_new P E' e) ->
  (forall v, from_str x E fuel id s = OOk v ->
     exists w, from_str (with_defaults x d) E' fuel id s = OOk w /\ moved (with_defaults x d) P E E' id v w) /\
  (forall w, from_str (with_defaults x d) E' fuel id s = OOk w ->
     exists v, from_str x E fuel id s = OOk v /\ moved (with_defaults x d) P E E' id v w).
Proof.
  intros x d P E E' fuel id s HE HD HK HO H. apply alike_of. destruct H as [H|[H1 H2]].
  - eapply sim_documents; [apply permuted_sim; assumption|]. intros e _. exact I.
  - eapply sim_documents with (Q := nothing_new P E'); [|exact H2]. apply grown_sim; auto.
    intros i td fs j f _ _ _ Hs. exact Hs.
Qed.
