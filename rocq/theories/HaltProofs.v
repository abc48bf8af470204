(** * C17: documents that are read to an end, by the names of their elements. *)
From Verif Require Import Str Num Xml XmlText Reader Schema De RunFacts SpecReader ReaderProofs SpecTree TreeFacts
  SpecStruct SpecSafe SafeProofs SpecTerm SpecComplete SpecHalt TermProofs.
Open Scope list_scope.

(** ** Conditions before a program runs *)
Definition wp {A} (p : prog A) (v : vstate) (Q : A -> vstate -> Prop) (QE : vstate -> Prop) : Prop :=
  match vrun p v with
  | (OFuel, _) => False
  | (OPanic _, _) => True
  | (OErr _, v') => QE v'
  | (OOk a, v') => Q a v'
  end.
Definition anywhere : vstate -> Prop := fun _ => True.

Lemma wp_bind : forall A B (p : prog A) (f : A -> prog B) v Q QE,
  wp p v (fun a v' => wp (f a) v' Q QE) QE -> wp (bind p f) v Q QE.
Proof. unfold wp. intros A B p f v Q QE H. rewrite vrun_bind. destruct (vrun p v) as [[]]; auto. Qed.
Lemma wp_mono : forall A (p : prog A) v (Q Q' : A -> vstate -> Prop) (QE QE' : vstate -> Prop), wp p v Q QE ->
  (forall a v', Q a v' -> Q' a v') -> (forall v', QE v' -> QE' v') -> wp p v Q' QE'.
Proof. unfold wp. intros A p v Q Q' QE QE' H H1 H2. destruct (vrun p v) as [[]]; auto. Qed.
Lemma wp_attempt : forall A (p : prog A) v (Q : res A -> vstate -> Prop) QE,
  wp p v (fun a v' => Q (Ok a) v') (fun v' => forall m, Q (Er m) v') -> wp (attempt p) v Q QE.
Proof. unfold wp. intros A p v Q QE H. rewrite vrun_attempt. destruct (vrun p v) as [[]]; auto. Qed.
Lemma wp_quiet : forall A (p : prog A) v (Q : A -> vstate -> Prop) (QE : vstate -> Prop), quiet p -> (forall a, Q a v) -> QE v -> wp p v Q QE.
Proof. unfold wp. intros A p v Q QE H H1 H2. destruct (H v) as (o & -> & Ho). destruct o; auto. Qed.
Lemma wp_peek_ : forall A (K : event -> prog A) v (Q : A -> vstate -> Prop) (QE : vstate -> Prop),
  (forall e, vpeek v = Ok e -> wp (K e) v Q QE) -> QE v -> wp (bind peek_ K) v Q QE.
Proof. unfold wp. intros A K v Q QE H H1. rewrite vrun_peek_. destruct (vpeek v) as [e|m]; [apply H; reflexivity|exact H1]. Qed.

Definition step (e : event) (st st' : list name) : Prop :=
  match e with
  | EStart n _ _ => st' = n :: st
  | EEnd n => st = n :: st'
  | _ => st' = st /\ st <> []
  end.

Section Doc.
  Variable evs0 : list event.

  (** A view of the document [evs0], with the names of the open elements. *)
  Definition at_ (st : list name) (v : vstate) : Prop :=
    v_depth v = List.length st /\ ends_in st (v_rest v) (v_fin v) /\ exists pre, evs0 = pre ++ v_rest v.

  Lemma at_in : forall st v e r, at_ st v -> v_rest v = e :: r -> In e evs0.
  Proof. intros st v e r (_ & _ & pre & ->) ->. apply in_or_app; right; left; reflexivity. Qed.
  Lemma at_leaf : forall st v n a m r, at_ st v -> v_rest v = EStart n a m :: r -> leaf_name evs0 n -> only_text r.
  Proof. intros st v n a m r (_ & _ & pre & He) Hr Hl. rewrite Hr in He. eapply Hl; exact He. Qed.

  Lemma next_at : forall st v e r, at_ st v -> v_rest v = e :: r ->
    exists st' v', vnext v = (Some (Ok e), v') /\ v_rest v' = r /\ at_ st' v' /\ step e st st'.
  Proof.
    intros st v e r (Hd & He & pre & Hi) Hr. destruct (TermProofs.next_at st v e r (conj Hd He) Hr) as (st' & v' & Hn & Hr' & [Hd' He'] & Hm).
    exists st', v'. split; [exact Hn|]. split; [exact Hr'|]. split; [|exact Hm]. split; [exact Hd'|]. split; [exact He'|].
    exists (pre ++ [e]). rewrite Hr', <- app_assoc. cbn [app]. rewrite Hi, Hr. reflexivity.
  Qed.

  Lemma inside : forall st v, at_ st v -> st <> [] ->
    (exists m, v_rest v = [] /\ v_fin v = FErr m) \/ (exists e r, v_rest v = e :: r).
  Proof. intros st v (Hd & He & _). apply (TermProofs.inside st v (conj Hd He)). Qed.
  Lemma peek_rest : forall v e, vpeek v = Ok e -> e <> EEndDoc -> exists r, v_rest v = e :: r.
  Proof. intros v e H He. unfold vpeek in H. destruct (v_rest v) as [|e' r]; [destruct (v_fin v); inversion H; subst; exfalso; apply He; reflexivity|]. inversion H; eauto. Qed.

  (** [next] *)
  Lemma wp_Next : forall A (K : res event -> prog A) v st e r Q QE, at_ st v -> v_rest v = e :: r ->
    (forall st' v', at_ st' v' -> v_rest v' = r -> step e st st' -> wp (K (Ok e)) v' Q QE) -> wp (Next K) v Q QE.
  Proof.
    intros A K v st e r Q QE H Hr HK. destruct (next_at _ _ _ _ H Hr) as (st' & v' & Hn & Hr' & Ha & Hs).
    unfold wp. cbn [vrun]. rewrite Hn. eapply HK; eauto.
  Qed.
  Lemma wp_next_ : forall A (K : event -> prog A) v st e r Q QE, at_ st v -> v_rest v = e :: r ->
    (forall st' v', at_ st' v' -> v_rest v' = r -> step e st st' -> wp (K e) v' Q QE) -> wp (bind next_ K) v Q QE.
  Proof.
    intros A K v st e r Q QE H Hr HK. unfold next_. cbn [bind]. eapply wp_Next; eauto.
  Qed.

  (** One event inside of an element: afterwards we are inside of it or right
      after its end, and no deeper than its children if there is only text. *)
  Definition near (P : Prop) (st : list name) (w : vstate) : Prop :=
    exists Y, at_ (Y ++ st) w /\ (P -> List.length Y <= 1).

  Lemma wp_Next_in : forall A (K : res event -> prog A) v X n st (P : Prop) Q QE, at_ (X ++ n :: st) v ->
    (P -> X = [] /\ only_text (v_rest v)) ->
    (forall r w, near P st w -> vlen w <= vlen v -> (forall e, r = Ok e -> vlen w < vlen v) -> wp (K r) w Q QE) ->
    wp (Next K) v Q QE.
  Proof.
    intros A K v X n st P Q QE H HP HK.
    destruct (inside _ _ H) as [(m & Hr & Hf)|(e & r & Hr)]; [destruct X; discriminate| |].
    - unfold wp. cbn [vrun]. assert (Hn : vnext v = (Some (Er m), v)) by (unfold vnext; rewrite Hr, Hf; reflexivity). rewrite Hn.
      apply HK; [|lia|discriminate]. exists (X ++ [n]). rewrite <- app_assoc. split; [exact H|].
      intros Hp. destruct (HP Hp) as [-> _]. cbn; lia.
    - eapply wp_Next; [exact H|exact Hr|]. intros st' w Hw Hrw Hs.
      assert (Hl : vlen w < vlen v) by (unfold vlen; rewrite Hr, Hrw; cbn; lia).
      apply HK; [|lia|intros; exact Hl].
      assert (Hsame : st' = X ++ n :: st -> near P st w).
      { intros ->. exists (X ++ [n]). rewrite <- app_assoc. split; [exact Hw|]. intros Hp. destruct (HP Hp) as [-> _]. cbn; lia. }
      destruct e as [ | |pi|c ca cm|c|t|t|t|t]; cbn [step] in Hs; try (apply Hsame, Hs).
      + subst st'. exists (c :: X ++ [n]). cbn [app]. rewrite <- app_assoc. split; [exact Hw|].
        intros Hp. destruct (HP Hp) as [_ Ht]. rewrite Hr in Ht. destruct Ht.
      + destruct X as [|y X]; cbn [app] in Hs; injection Hs as <- <-.
        * exists []. split; [exact Hw|cbn; lia].
        * exists (X ++ [n]). rewrite <- app_assoc. split; [exact Hw|]. intros Hp. destruct (HP Hp) as [Hx _]. discriminate.
  Qed.

(** ** What is left for flattened fields *)
Lemma some_leave : forall l p q, some_of l p -> some_of l (p ++ q).
Proof.
  intros l p q H. induction H as [|e l r H IH|e l r H IH]; [|constructor; exact IH|apply so_leave; exact IH].
  cbn [app]. induction q as [|e q IH]; [constructor|apply so_leave; exact IH].
Qed.
Lemma some_take : forall l p e, some_of l p -> some_of (l ++ [e]) (p ++ [e]).
Proof.
  intros l p e H. induction H as [|d l r H IH|d l r H IH]; cbn [app]; [repeat constructor|constructor; exact IH|apply so_leave; exact IH].
Qed.

Section Unused.
  (** The own start tag, and the events after it. *)
  Variables (own : event) (r0 : list event).
  Definition kept (u : uwriter) (v : vstate) : Prop :=
    match u with
    | ULive _ ws => exists l post, r0 = post ++ v_rest v /\ some_of l post /\ map as_writer_event (own :: l) = map Some ws
    | _ => True
    end.
  Definition left_over (u : uwriter) : Prop :=
    match u with
    | ULive _ ws => exists l, some_of l r0 /\ map as_writer_event (own :: l) = map Some ws
    | _ => True
    end.

  Lemma suffix_of : forall st v st' w, at_ st v -> at_ st' w -> vlen w <= vlen v -> exists p, v_rest v = p ++ v_rest w.
  Proof.
    intros st v st' w (_ & _ & pre & H) (_ & _ & pre' & H') Hl. unfold vlen in Hl. rewrite H in H'.
    revert pre' H'. clear H. induction pre as [|e pre IH]; intros pre' H'.
    - exists pre'. exact H'.
    - destruct pre' as [|e' pre']; cbn [app] in H'.
      + exfalso. apply (f_equal (@List.length event)) in H'. cbn [List.length] in H'. rewrite app_length in H'. lia.
      + injection H' as _ H'. exact (IH pre' H').
  Qed.
  Lemma kept_on : forall u st v st' w, kept u v -> at_ st v -> at_ st' w -> vlen w <= vlen v -> kept u w.
  Proof.
    intros u st v st' w H Hv Hw Hl. destruct (suffix_of _ _ _ _ Hv Hw Hl) as [p Hp].
    destruct u as [| |s ws]; try exact I. destruct H as (l & post & H1 & H2 & H3). exists l, (post ++ p).
    split; [rewrite <- app_assoc, <- Hp; exact H1|]. split; [apply some_leave; exact H2|exact H3].
  Qed.
  Lemma kept_left : forall u v, kept u v -> left_over u.
  Proof.
    intros u v H. destruct u as [| |s ws]; try exact I. destruct H as (l & post & H1 & H2 & H3). exists l. split; [|exact H3].
    rewrite H1. apply some_leave. exact H2.
  Qed.
  Lemma map_snoc_some : forall l ws e w, map as_writer_event (own :: l) = map Some ws -> as_writer_event e = Some w ->
    map as_writer_event (own :: l ++ [e]) = map Some (ws ++ [w]).
  Proof. intros l ws e w H He. rewrite (map_app Some), <- H. cbn [map app]. rewrite map_app. cbn [map]. rewrite He. reflexivity. Qed.

  (** The event that has just been taken. *)
  Lemma write_kept : forall u v e v', kept u v -> v_rest v = e :: v_rest v' ->
    wp (write_unused u e) v' (fun u' w => w = v' /\ kept u' v') anywhere.
  Proof.
    intros u v e v' H Hr. unfold write_unused. destruct u as [| |s ws]; try (split; [reflexivity|exact I]).
    destruct (as_writer_event e) as [we|] eqn:He; [|exact I]. destruct (emit_check s we) as [s' ok].
    unfold wp. cbn [vrun]. split; [reflexivity|]. destruct ok; [|exact I].
    destruct H as (l & post & H1 & H2 & H3). exists (l ++ [e]), (post ++ [e]).
    split; [rewrite <- app_assoc; cbn [app]; rewrite <- Hr; exact H1|]. split; [apply some_take; exact H2|].
    apply map_snoc_some; assumption.
  Qed.
  (** The end tag that is looked at last. *)
  Lemma write_last : forall u v e r, kept u v -> v_rest v = e :: r ->
    wp (write_unused u e) v (fun u' w => w = v /\ left_over u') anywhere.
  Proof.
    intros u v e r H Hr. unfold write_unused. destruct u as [| |s ws]; try (split; [reflexivity|exact I]).
    destruct (as_writer_event e) as [we|] eqn:He; [|exact I]. destruct (emit_check s we) as [s' ok].
    unfold wp. cbn [vrun]. split; [reflexivity|]. destruct ok; [|exact I].
    destruct H as (l & post & H1 & H2 & H3). exists (l ++ [e]).
    split; [|apply map_snoc_some; assumption]. rewrite H1, Hr.
    change (post ++ e :: r) with (post ++ [e] ++ r). rewrite app_assoc. apply some_leave, some_take, H2.
  Qed.
  (** The start tag itself. *)
  Lemma write_own : forall u v', match u with ULive _ ws => ws = [] | _ => True end -> v_rest v' = r0 ->
    wp (write_unused u own) v' (fun u' w => w = v' /\ kept u' v') anywhere.
  Proof.
    intros u v' H Hr. unfold write_unused. destruct u as [| |s ws]; try (split; [reflexivity|exact I]). subst ws.
    destruct (as_writer_event own) as [we|] eqn:He; [|exact I]. destruct (emit_check s we) as [s' ok].
    unfold wp. cbn [vrun]. split; [reflexivity|]. destruct ok; [|exact I].
    exists [], []. split; [symmetry; exact Hr|]. split; [constructor|]. cbn [map app]. rewrite He. reflexivity.
  Qed.
End Unused.

Section De.
  Variable x : ext.
  Variable E : env.
  Variable C : nat -> name -> Prop.
  Variable rec : nat -> prog value.
  Variable fuel : nat.

  (** Where reading type [id] from an element [n] leaves off. *)
  Definition left_at (id : nat) (n : name) (st : list name) (N : nat) (v' : vstate) : Prop :=
    exists X, at_ (X ++ n :: st) v' /\ vlen v' <= N /\
      ((from_text E id -> leaf_name evs0 n) -> X = [] /\ only_text (v_rest v')).

  (** Reading a type from an element with at most [bound] events to come. *)
  Definition rec_ok (bound : nat) : Prop := forall id st v n a m r, C id n -> at_ st v ->
    v_rest v = EStart n a m :: r -> vlen v <= bound ->
    wp (rec id) v (fun _ v' => v' = v \/ left_at id n st (List.length r) v') anywhere.

  (** A newtype is not read from a text. *)
  Hypothesis Hnew : forall i v t r, newtype E i -> v_rest v = EChars t :: r -> wp (rec i) v (fun _ _ => False) anywhere.

  (** The texts of attributes of user types are read to an end. *)
  Hypothesis Hattr : forall i t, attr_text E evs0 i t -> fst (run (rec i) (d_init (parse_text (attr_document E i t)))) <> OFuel.

  (** So is what is left for flattened fields. *)
  Hypothesis Hrest : forall i t, rest_text E evs0 C i t -> fst (run (rec i) (d_init (parse_text t))) <> OFuel.

  Lemma quiet_attr : forall b t, (forall i, b = BUser i -> attr_text E evs0 i t) -> quiet (visit_attr x E rec b t).
  Proof.
    intros [s|i] t H; unfold visit_attr; [apply quiet_of_res|]. specialize (Hattr i t (H i eq_refl)). unfold attr_document in Hattr.
    destruct (nth_error E i) as [td|]; [|intros v; eexists; split; [reflexivity|discriminate]].
    unfold from_str_in. destruct (fst (run _ _)); try congruence; intros v; eexists; (split; [reflexivity|discriminate]).
  Qed.
  Lemma quiet_attr_items : forall b i items ss, (forall t k, In t items -> b = BUser k -> attr_text E evs0 k t) ->
    quiet (visit_attr_items x E rec b i items ss).
  Proof.
    intros b i items; induction items as [|t items IH]; intros ss H; cbn [visit_attr_items]; [apply quiet_ret|].
    apply quiet_bind; [apply quiet_attr; intros k Hk; apply H; [left; reflexivity|exact Hk]|].
    intros; apply IH. intros t' k Ht. apply H. right; exact Ht.
  Qed.

  Lemma quiet_load_attrs : forall id td FS n attrs m, struct_type E id td FS -> In (EStart n attrs m) evs0 ->
    forall fs, incl fs FS -> forall i ss, quiet (load_attrs x E rec fs i attrs ss).
  Proof.
    intros id td FS n attrs m Hst Hin fs; induction fs as [|f fs IH]; intros Hfs i ss; cbn [load_attrs]; [apply quiet_ret|].
    apply quiet_bind; [|intros; apply IH; intros z Hz; apply Hfs; right; exact Hz].
    destruct (ya_attribute (f_attrs f)) eqn:Ha; [|apply quiet_ret].
    assert (Hf : In f FS) by (apply Hfs; left; reflexivity).
    assert (Hsub : forall l, incl l attrs -> forall ss, quiet (load_attr x E rec f i l ss)).
    { induction l as [|a l IHl]; intros Hl ss'; cbn [load_attr]; [apply quiet_ret|].
      apply quiet_bind; [|intros; apply IHl; intros z Hz; apply Hl; right; exact Hz].
      destruct (String.eqb_spec (n_local (at_name a)) (field_local f)) as [He|_]; [|apply quiet_ret].
      assert (Hat : forall k t, base_of (f_ty f) = BUser k -> match f_ty f with TVec _ => In t (split_ws (at_value a)) | _ => t = at_value a end -> attr_text E evs0 k t).
      { intros k t Hk Ht. exists id, td, FS, f, n, attrs, m, a. repeat split; auto; try apply Hst. apply Hl. left; reflexivity. }
      assert (Hgen : (forall k, base_of (f_ty f) = BUser k -> attr_text E evs0 k (at_value a)) ->
        quiet (bind (visit_attr x E rec (base_of (f_ty f)) (at_value a)) (fun v => Ret (upd i (put_slot v) ss')))).
      { intros Hk. apply quiet_bind; [apply quiet_attr; exact Hk|intros; apply quiet_ret]. }
      destruct (f_ty f) as [b|b|b|b]; cbn [base_of] in *; try (apply Hgen; intros k Hk; apply (Hat k _ Hk eq_refl)).
      - destruct b as [[]|]; try apply quiet_ret; apply Hgen; intros k Hk; apply (Hat k _ Hk eq_refl).
      - apply quiet_attr_items. intros t k Ht Hk. apply (Hat k t Hk Ht). }
    apply Hsub. intros z Hz; exact Hz.
  Qed.


  Lemma rec_ok_le : forall b b', rec_ok b -> b' <= b -> rec_ok b'.
  Proof. intros b b' H Hb id st v n a m r H1 H2 H3 H4. eapply H; eauto. lia. Qed.

  (** [skip_element] right after a start tag closes that element. *)
  Lemma skip_wp : forall own r0 fl B c X u v, at_ (X ++ c :: B) v -> vlen v < fl -> kept own r0 u v ->
    wp (skip_loop fl (S (List.length B)) write_unused u) v (fun u' v' => at_ B v' /\ vlen v' <= vlen v /\ kept own r0 u' v') anywhere.
  Proof.
    intros own r0. induction fl as [|fl IH]; intros B c X u v H Hl Hk; [lia|]. cbn [skip_loop]. unfold wp. cbn [vrun].
    assert (Hd := proj1 H). rewrite app_length in Hd. cbn [List.length] in Hd.
    destruct (Nat.leb _ (v_depth v)) eqn:Hle; [|apply Nat.leb_gt in Hle; lia].
    match goal with |- match vrun ?p v with _ => _ end => change (wp p v (fun u' v' => at_ B v' /\ vlen v' <= vlen v /\ kept own r0 u' v') anywhere) end.
    destruct (inside _ _ H) as [(m & Hr & Hf)|(e & r & Hr)]; [destruct X; discriminate| |].
    { unfold wp, next_. cbn [bind vrun]. assert (Hn : vnext v = (Some (Er m), v)) by (unfold vnext; rewrite Hr, Hf; reflexivity). rewrite Hn. exact I. }
    eapply wp_next_; [exact H|exact Hr|]. intros st' v' Hv' Hrv Hs.
    assert (Hlt : vlen v' < vlen v) by (unfold vlen; rewrite Hr, Hrv; cbn; lia).
    apply wp_bind. eapply wp_mono; [apply (write_kept own r0 u v e v' Hk); rewrite Hrv; exact Hr| |auto]. intros u' w0 [-> Hk'].
    assert (Hin : forall Y d, at_ (Y ++ d :: B) v' -> wp (skip_loop fl (S (List.length B)) write_unused u') v'
              (fun u' v' => at_ B v' /\ vlen v' <= vlen v /\ kept own r0 u' v') anywhere).
    { intros Y d Hy. eapply wp_mono; [eapply IH; [exact Hy|lia|exact Hk']| |auto]. intros u2 w (H1 & H2 & H3); split; [exact H1|split; [lia|exact H3]]. }
    assert (Hsame : st' = X ++ c :: B -> wp (skip_loop fl (S (List.length B)) write_unused u') v'
              (fun u' v' => at_ B v' /\ vlen v' <= vlen v /\ kept own r0 u' v') anywhere) by (intros ->; apply (Hin X c Hv')).
    destruct e as [ | |pi|d ca cm|d|t|t|t|t]; cbn [step] in Hs; try (apply Hsame, Hs).
    - subst st'. apply (Hin (d :: X) c). exact Hv'.
    - destruct X as [|y X]; cbn [app] in Hs; injection Hs as <- <-; [|apply (Hin X c); exact Hv'].
      destruct fl as [|fl]; [lia|]. cbn [skip_loop]. unfold wp. cbn [vrun]. rewrite (proj1 Hv').
      rewrite (proj2 (Nat.leb_gt (S (List.length B)) (List.length B)) (Nat.lt_succ_diag_r _)). split; [exact Hv'|split; [lia|exact Hk']].
  Qed.

  (** The end of an element that holds a text. *)
  Lemma expect_wp : forall A (b : A) X n st (P : Prop) v N, at_ (X ++ n :: st) v -> (P -> X = [] /\ only_text (v_rest v)) -> vlen v <= N ->
    wp (bind (expect_end_element n) (fun _ => Ret b)) v (fun _ w => near P st w /\ vlen w <= N) (fun w => near P st w /\ vlen w <= N).
  Proof.
    intros A b X n st P v N H HP HN. unfold expect_end_element, next_. cbn [bind]. eapply wp_Next_in; [exact H|exact HP|].
    intros r w Hw Hle _. assert (Hq : near P st w /\ vlen w <= N) by (split; [exact Hw|lia]).
    destruct r as [e|m]; cbn [of_res bind]; [|exact Hq].
    destruct e; try exact Hq. destruct (name_eqb _ _); exact Hq.
  Qed.

  Lemma arm_simple_wp : forall ra i f s n a m r ss st v, at_ st v -> v_rest v = EStart n a m :: r ->
    wp (arm_simple x ra i f s n ss) v (fun _ w => near (leaf_name evs0 n) st w /\ vlen w <= List.length r) anywhere.
  Proof.
    intros ra i f s n a m r ss st v H Hr. unfold arm_simple. destruct (namespace_check _ _ _ _); [exact I|].
    apply wp_bind, wp_attempt. unfold read_inner_value.
    set (Q := fun w => near (leaf_name evs0 n) st w /\ vlen w <= List.length r).
    eapply wp_mono with (Q := fun _ => Q) (QE := Q); [|intros b w Hw; exact Hw|intros w Hw b; exact Hw].
    assert (Ht := at_leaf _ _ _ _ _ _ H Hr).
    eapply wp_Next; [exact H|exact Hr|]. intros st' v' Hv' Hr' Hs. cbn [step] in Hs. subst st'.
    assert (Hl : vlen v' = List.length r) by (unfold vlen; rewrite Hr'; reflexivity).
    assert (Hq : Q v') by (split; [exists [n]; split; [exact Hv'|cbn; lia]|lia]).
    cbn [bind]. unfold wp. cbn [vrun]. destruct (vpeek v') as [e|e] eqn:Hp; [|exact Hq].
    destruct e; try exact Hq.
    destruct (peek_rest _ _ Hp ltac:(discriminate)) as [r2 Hr2].
    assert (Hr3 : r = EChars s0 :: r2) by congruence.
    match goal with |- match vrun (bind ?p ?f) v' with _ => _ end => change (wp (bind p f) v' (fun _ => Q) Q) end.
    apply wp_bind. eapply wp_next_; [exact Hv'|exact Hr2|]. intros st2 v2 Hv2 Hrv2 [-> _].
    assert (Hl2 : vlen v2 <= List.length r) by (unfold vlen; rewrite Hrv2, Hr3; cbn; lia).
    apply wp_quiet; [apply quiet_of_res| |split; [exists [n]; split; [exact Hv2|cbn; lia]|exact Hl2]].
    intros b. apply (expect_wp _ b []); [exact Hv2| |exact Hl2].
    intros Hleaf. split; [reflexivity|]. specialize (Ht Hleaf). rewrite Hr3 in Ht. rewrite Hrv2. exact Ht.
  Qed.

  (** Reading a user type and the [next] after it. *)
  Lemma rec_next_wp : forall A id st v n a m r (K : value -> res event -> prog A) Q, rec_ok (vlen v) -> C id n -> at_ st v ->
    v_rest v = EStart n a m :: r ->
    (forall b e w, near (from_text E id -> leaf_name evs0 n) st w -> vlen w <= List.length r -> wp (K b e) w Q anywhere) ->
    wp (bind (rec id) (fun b => Next (K b))) v Q anywhere.
  Proof.
    intros A id st v n a m r K Q Hrec Hid H Hr HK. apply wp_bind.
    eapply wp_mono; [apply (Hrec id st v n a m r Hid H Hr (le_n _))| |auto]. cbn beta.
    intros b v' [->|(X & Hx & Hl & Hp)].
    - eapply wp_Next; [exact H|exact Hr|]. intros st' w Hw Hrw Hs. cbn [step] in Hs. subst st'.
      apply HK; [exists [n]; split; [exact Hw|cbn; lia]|unfold vlen; rewrite Hrw; lia].
    - eapply wp_Next_in; [exact Hx|exact Hp|]. intros e w Hw Hle _. apply HK; [exact Hw|lia].
  Qed.

  Lemma bind_next_ : forall A B (p : prog A) (g : A -> prog B), bind p (fun b => bind next_ (fun _ => g b)) =
    bind p (fun b => Next (fun r => bind (of_res r) (fun _ => g b))).
  Proof. reflexivity. Qed.

  (** Not at the outermost level. *)
  Lemma arm_struct_wp : forall i id dp ss st n a m r v, Z.eqb dp 0 = false -> rec_ok (vlen v) ->
    C id n -> at_ st v -> v_rest v = EStart n a m :: r ->
    wp (arm_struct rec i id dp ss) v (fun _ w => near (from_text E id -> leaf_name evs0 n) st w /\ vlen w <= List.length r) anywhere.
  Proof.
    intros i id dp ss st n a m r v Hdp Hrec Hid H Hr. unfold arm_struct. rewrite Hdp. unfold wp. cbn [vrun].
    assert (Hp : vpeek v = Ok (EStart n a m)) by (unfold vpeek; rewrite Hr; reflexivity). rewrite Hp.
    match goal with |- match vrun ?p v with _ => _ end => change (wp p v (fun _ w => near (from_text E id -> leaf_name evs0 n) st w /\ vlen w <= List.length r) anywhere) end.
    rewrite bind_next_. eapply rec_next_wp; [exact Hrec|exact Hid|exact H|exact Hr|].
    intros b [e|e] w Hw Hl; cbn [of_res bind]; [|exact I]. split; assumption.
  Qed.

  Lemma arm_struct_root_wp : forall i id ss st n a m r v, rec_ok (vlen v - 1) ->
    (forall n', C id n') -> at_ st v -> v_rest v = EStart n a m :: r ->
    wp (arm_struct rec i id 0 ss) v (fun _ w => (exists X, at_ (X ++ n :: st) w) /\ vlen w <= List.length r) anywhere.
  Proof.
    intros i id ss st n a m r v Hrec Hid H Hr. unfold arm_struct. rewrite Z.eqb_refl.
    eapply wp_Next; [exact H|exact Hr|]. intros st' v' Hv' Hr' Hs. cbn [step] in Hs. subst st'.
    assert (Hl : vlen v' = List.length r) by (unfold vlen; rewrite Hr'; reflexivity).
    assert (Hlv : vlen v = S (List.length r)) by (unfold vlen; rewrite Hr; reflexivity).
    assert (Hq : (exists X, at_ (X ++ n :: st) v') /\ vlen v' <= List.length r) by (split; [exists []; exact Hv'|lia]).
    unfold wp. cbn [vrun]. destruct (vpeek v') as [e|e] eqn:Hp; [|exact Hq]. destruct e as [ | |pi|c ca cm|c|t|t|t|t]; try exact Hq.
    destruct (peek_rest _ _ Hp ltac:(discriminate)) as [r2 Hr2].
    match goal with |- match vrun ?p v' with _ => _ end => change (wp p v' (fun _ w => (exists X, at_ (X ++ n :: st) w) /\ vlen w <= List.length r) anywhere) end.
    rewrite bind_next_. eapply rec_next_wp; [eapply rec_ok_le; [exact Hrec|lia]|apply Hid|exact Hv'|exact Hr2|].
    intros b [e|e] w [Y [Hw _]] Hlw; cbn [of_res bind]; [|exact I]. split; [exists Y; exact Hw|].
    rewrite <- Hl. unfold vlen at 2. rewrite Hr2. cbn [List.length]. lia.
  Qed.

  Section Struct.
    Variable id : nat.
    Variable td : typedef.
    Variable fs : list field.
    Hypothesis Hst : struct_type E id td fs.
    Variable calmed : Prop.
    Hypothesis Hcalmed : calmed -> settled E evs0 (t_attrs td) fs.
    Hypothesis HU : forall f i, In f fs -> elem_field f -> base_of (f_ty f) = BUser i ->
      (forall n', elabel n' = flabel (t_attrs td) f -> C i n') /\ (calmed \/ forall n', C i n').

    (** Inside the struct's own element [n0]: every open element has been
        counted. *)
    Definition counted (X : list name) (d : Z) : Prop := calmed -> (1 + Z.of_nat (List.length X) <= d)%Z.
    Definition here (n0 : name) (B0 : list name) (N : nat) (d : Z) (w : vstate) : Prop :=
      exists X, at_ (X ++ n0 :: B0) w /\ vlen w <= N /\ counted X d.

    Lemma near_here : forall (P : Prop) n0 B0 X d w N, counted X d -> (calmed -> P) -> near P (X ++ n0 :: B0) w -> vlen w <= N ->
      here n0 B0 N (d + 1) w.
    Proof.
      intros P n0 B0 X d w N Hc HP (Y & Hy & Hp) HN. exists (Y ++ X). rewrite <- app_assoc. split; [exact Hy|]. split; [exact HN|].
      intros Hcm. specialize (Hc Hcm). specialize (Hp (HP Hcm)). rewrite app_length. lia.
    Qed.

    Lemma loop_wp : forall own r0 fl n0 B0 X st v, at_ (X ++ n0 :: B0) v -> counted X (l_depth st) -> vlen v < fl -> vlen v < fuel ->
      rec_ok (vlen v) -> kept own r0 (l_unused st) v ->
      wp (struct_loop x E rec fuel fl td fs (n_local n0) (List.length B0) st) v
        (fun st' w => left_over own r0 (l_unused st') /\ at_ (n0 :: B0) w /\ only_text (v_rest w) /\ vlen w <= vlen v) anywhere.
    Proof.
      intros own r0. induction fl as [|fl IH]; intros n0 B0 X st v H Hc Hl Hfu Hrec Hk; [lia|]. cbn [struct_loop].
      apply wp_peek_; [|exact I]. intros e Hp.
      destruct (inside _ _ H) as [(m & Hr & Hf)|(e' & r & Hr)]; [destruct X; discriminate|unfold vpeek in Hp; rewrite Hr, Hf in Hp; discriminate|].
      assert (e' = e) by (unfold vpeek in Hp; rewrite Hr in Hp; congruence). subst e'.
      assert (Hvl : vlen v = S (List.length r)) by (unfold vlen; rewrite Hr; reflexivity).
      assert (Hgo : forall ss u d v', here n0 B0 (List.length r) d v' -> kept own r0 u v' ->
        wp (struct_loop x E rec fuel fl td fs (n_local n0) (List.length B0) (LState ss u d)) v'
          (fun st' w => left_over own r0 (l_unused st') /\ at_ (n0 :: B0) w /\ only_text (v_rest w) /\ vlen w <= vlen v) anywhere).
      { intros ss u d v' (Y & Hy & Hv' & Hcy) Hku. eapply wp_mono; [eapply IH; [exact Hy|exact Hcy|lia|lia|eapply rec_ok_le; [exact Hrec|lia]|exact Hku]| |auto].
        intros st' w (W0 & W1 & W2 & W3). split; [exact W0|]. split; [exact W1|]. split; [exact W2|lia]. }
      assert (Hends := proj1 (proj2 H)). rewrite Hr in Hends.
      destruct e as [ | |pi|n attrs m|n|t|t|t|t]; cbn [ends_in] in Hends; try contradiction; try exact I.
      - (* start *)
        rewrite find_field_for. apply wp_bind.
        assert (Hin := at_in _ _ _ _ H Hr).
        eapply wp_mono with (Q := fun st1 w => l_depth st1 = l_depth st /\ here n0 B0 (List.length r) (l_depth st + 1) w /\ kept own r0 (l_unused st1) w) (QE := anywhere); [| |auto].
        2: { intros st1 w (Hd & Hw & Hk1). apply wp_bind, wp_quiet; [|intros ss; rewrite Hd; apply Hgo; [exact Hw|exact Hk1]|exact I].
             destruct (Z.eqb _ 0); [eapply quiet_load_attrs; [exact Hst|exact Hin|apply incl_refl]|apply quiet_ret]. }
        assert (Hnext : forall w, at_ (n :: X ++ n0 :: B0) w -> v_rest w = r -> here n0 B0 (List.length r) (l_depth st + 1) w).
        { intros w Hw Hrw. apply (near_here True n0 B0 X); [exact Hc|auto| |unfold vlen; rewrite Hrw; lia].
          exists [n]. split; [exact Hw|cbn; lia]. }
        destruct (_ && _)%bool eqn:Hm.
        + eapply wp_next_; [exact H|exact Hr|]. intros st' w Hw Hrw Hs. cbn [step] in Hs. subst st'.
          apply wp_bind. eapply wp_mono; [eapply write_kept; [exact Hk|rewrite Hrw; exact Hr]| |auto]. intros u w0 [-> Hku].
          split; [reflexivity|]. split; [apply Hnext; assumption|exact Hku].
        + destruct (field_for (t_attrs td) fs n) as [[i f]|] eqn:Hff.
          * apply wp_bind. rewrite fbase_base.
            assert (Hfs := field_for_spec _ _ _ _ _ Hff). destruct Hfs as (F1 & F2 & F3 & F4). apply nth_error_In in F1.
            assert (Hel : elem_field f) by (split; assumption).
            eapply wp_mono with (Q := fun _ w => here n0 B0 (List.length r) (l_depth st + 1) w) (QE := anywhere);
              [|intros ss w Hw; split; [reflexivity|split; [exact Hw|destruct Hw as (Y & Hy & Hlw & _); eapply kept_on; [exact Hk|exact H|exact Hy|lia]]]|auto].
            destruct (base_of (f_ty f)) as [s|i1] eqn:Hb.
            -- eapply wp_mono; [eapply arm_simple_wp; [exact H|exact Hr]| |auto]. intros ss w [Hw Hlw].
               eapply near_here; [exact Hc| |exact Hw|exact Hlw]. intros Hcm. apply (Hcalmed Hcm f n F1 Hel); [symmetry; exact F4|]. rewrite Hb. exact I.
            -- destruct (HU f i1 F1 Hel Hb) as [HC1 HC2].
               destruct (Z.eqb (l_depth st) 0) eqn:Hz.
               ++ apply Z.eqb_eq in Hz. destruct HC2 as [Hcm|Hall]; [exfalso; specialize (Hc Hcm); lia|].
                  rewrite Hz. eapply wp_mono; [eapply arm_struct_root_wp; [eapply rec_ok_le; [exact Hrec|lia]|exact Hall|exact H|exact Hr]| |auto].
                  intros ss w [[Y Hw] Hlw]. exists (Y ++ n :: X). rewrite <- app_assoc. split; [exact Hw|]. split; [exact Hlw|].
                  intros Hcm. specialize (Hc Hcm). lia.
               ++ eapply wp_mono; [eapply arm_struct_wp; [exact Hz|exact Hrec|apply HC1; symmetry; exact F4|exact H|exact Hr]| |auto].
                  intros ss w [Hw Hlw]. eapply near_here; [exact Hc| |exact Hw|exact Hlw].
                  intros Hcm Hft. apply (Hcalmed Hcm f n F1 Hel); [symmetry; exact F4|]. rewrite Hb. exact Hft.
          * eapply wp_next_; [exact H|exact Hr|]. intros st' w Hw Hrw Hs. cbn [step] in Hs. subst st'.
            assert (Hlw : vlen w = List.length r) by (unfold vlen; rewrite Hrw; reflexivity).
            apply wp_bind. eapply wp_mono; [eapply write_kept; [exact Hk|rewrite Hrw; exact Hr]| |auto]. intros u w0 [-> Hku]. apply wp_bind.
            destruct (Z.ltb 0 (l_depth st)); [|split; [reflexivity|split; [apply Hnext; assumption|exact Hku]]].
            unfold skip_element, wp. cbn [vrun]. rewrite (proj1 Hw). cbn [List.length].
            match goal with |- match vrun ?p w with _ => _ end => change (wp p w (fun a v' => wp (Ret (LState (l_slots st) a (l_depth st))) v'
              (fun st1 w => l_depth st1 = l_depth st /\ here n0 B0 (List.length r) (l_depth st + 1) w /\ kept own r0 (l_unused st1) w) anywhere) anywhere) end.
            eapply wp_mono; [apply (skip_wp own r0 fuel _ n []); [exact Hw|lia|exact Hku]| |auto]. intros u' w' (Hw' & Hlw' & Hku').
            split; [reflexivity|]. split; [|exact Hku']. apply (near_here True n0 B0 X); [exact Hc|auto| |lia]. exists []. split; [exact Hw'|cbn; lia].
      - (* end *)
        unfold wp. cbn [vrun]. rewrite (proj1 H).
        destruct X as [|c X].
        + cbn [app] in H. cbn [app List.length]. destruct Hends as [<- _]. rewrite String.eqb_refl, Nat.eqb_refl. cbn [andb].
          match goal with |- match vrun ?p v with _ => _ end => change (wp p v (fun st' w => left_over own r0 (l_unused st') /\ at_ (n :: B0) w /\ only_text (v_rest w) /\ vlen w <= vlen v) anywhere) end.
          apply wp_bind. eapply wp_mono; [eapply write_last; [exact Hk|exact Hr]| |auto]. intros u w0 [-> Hku].
          split; [exact Hku|]. split; [exact H|]. split; [rewrite Hr; exact I|lia].
        + replace (Nat.eqb (List.length ((c :: X) ++ n0 :: B0)) (S (List.length B0))) with false.
          2: { symmetry; apply Nat.eqb_neq. rewrite app_length. cbn [List.length]. lia. }
          rewrite andb_false_r.
          match goal with |- match vrun ?p v with _ => _ end => change (wp p v (fun st' w => left_over own r0 (l_unused st') /\ at_ (n0 :: B0) w /\ only_text (v_rest w) /\ vlen w <= vlen v) anywhere) end.
          eapply wp_next_; [exact H|exact Hr|]. intros st' w Hw Hrw Hs. cbn [step app] in Hs. injection Hs as <- <-.
          apply wp_bind. eapply wp_mono; [eapply write_kept; [exact Hk|rewrite Hrw; exact Hr]| |auto]. intros u w0 [-> Hku]. apply Hgo; [|exact Hku].
          exists X. split; [exact Hw|]. split; [unfold vlen; rewrite Hrw; lia|]. intros Hcm. specialize (Hc Hcm). cbn [List.length] in Hc. lia.
      - (* text *)
        eapply wp_next_; [exact H|exact Hr|]. intros st' w Hw Hrw Hs. cbn [step] in Hs. destruct Hs as [-> _].
        apply wp_bind. eapply wp_mono; [eapply write_kept; [exact Hk|rewrite Hrw; exact Hr]| |auto]. intros u w0 [-> Hku]. apply Hgo; [|exact Hku].
        exists X. split; [exact Hw|]. split; [unfold vlen; rewrite Hrw; lia|]. exact Hc.
    Qed.

    (** The whole loop, called at the start tag. *)
    Lemma start_wp : forall n a m r st v ss u, at_ st v -> v_rest v = EStart n a m :: r ->
      (forall f, In f fs -> elem_field f -> elabel n = flabel (t_attrs td) f -> elabel n <> root_label td ->
         exists i, base_of (f_ty f) = BUser i /\ (calmed -> False) /\ forall n', C i n') ->
      vlen v < fuel -> rec_ok (vlen v - 1) -> match u with ULive _ ws => ws = [] /\ unlike td fs n | _ => True end ->
      wp (struct_loop x E rec fuel fuel td fs (n_local n) (List.length st) (LState ss u 0)) v
        (fun st' w => left_over (EStart n a m) r (l_unused st') /\ at_ (n :: st) w /\ only_text (v_rest w) /\ vlen w <= List.length r) anywhere.
    Proof.
      intros n attrs m r st v ss u H Hr Hroot Hfu Hrec Hu.
      destruct fuel as [|fl] eqn:Hfuel; [lia|]. cbn [struct_loop].
      assert (Hvl : vlen v = S (List.length r)) by (unfold vlen; rewrite Hr; reflexivity).
      apply wp_peek_; [|exact I]. intros e Hp. assert (e = EStart n attrs m) by (unfold vpeek in Hp; rewrite Hr in Hp; congruence). subst e.
      cbn [l_depth l_slots l_unused]. rewrite Z.eqb_refl. rewrite find_field_for. cbn [andb].
      assert (Hin := at_in _ _ _ _ H Hr).
      apply wp_bind.
      eapply wp_mono with (Q := fun st1 w => l_depth st1 = 0%Z /\ here n st (List.length r) 1 w /\ kept (EStart n attrs m) r (l_unused st1) w) (QE := anywhere); [| |auto].
      2: { intros st1 w (Hd & (Y & Hy & Hlw & Hcy) & Hk). apply wp_bind, wp_quiet; [| |exact I].
           - destruct (Z.eqb _ 0); [eapply quiet_load_attrs; [exact Hst|exact Hin|apply incl_refl]|apply quiet_ret].
           - intros ss'. rewrite <- Hfuel. eapply wp_mono; [eapply loop_wp; [exact Hy|cbn [l_depth]; rewrite Hd; exact Hcy|lia|lia|eapply rec_ok_le; [exact Hrec|lia]|exact Hk]| |auto].
             intros st' w' (W0 & W1 & W2 & W3). split; [exact W0|]. split; [exact W1|]. split; [exact W2|lia]. }
      assert (Hnext : forall w, at_ (n :: st) w -> v_rest w = r -> here n st (List.length r) 1 w).
      { intros w Hw Hrw. exists []. split; [exact Hw|]. split; [unfold vlen; rewrite Hrw; lia|]. intros _; cbn; lia. }
      destruct (_ && _)%bool eqn:Hm.
      - eapply wp_next_; [exact H|exact Hr|]. intros st' w Hw Hrw Hs. cbn [step] in Hs. subst st'.
        apply wp_bind. eapply wp_mono; [apply (write_own (EStart n attrs m) r); [destruct u; try exact I; apply Hu|exact Hrw]| |auto].
        intros u' w0 [-> Hku]. split; [reflexivity|]. split; [apply Hnext; assumption|exact Hku].
      - destruct (field_for (t_attrs td) fs n) as [[i f]|] eqn:Hff.
        + apply wp_bind. rewrite fbase_base.
          assert (Hfs := field_for_spec _ _ _ _ _ Hff). destruct Hfs as (F1 & F2 & F3 & F4). apply nth_error_In in F1.
          assert (Hel : elem_field f) by (split; assumption).
          assert (Hnr : elabel n <> root_label td).
          { intros Hx. unfold elabel, root_label in Hx. injection Hx as Hx1 Hx2.
            apply andb_false_iff in Hm. destruct Hm as [Hm|Hm]; apply String.eqb_neq in Hm; apply Hm; assumption. }
          destruct (Hroot f F1 Hel (eq_sym F4) Hnr) as (i1 & Hb & Hnc & Hall). rewrite Hb.
          eapply wp_mono; [eapply arm_struct_root_wp; [exact Hrec|exact Hall|exact H|exact Hr]| |auto].
          intros ss' w [[Y Hw] Hlw]. split; [reflexivity|]. split.
          * exists Y. split; [exact Hw|]. split; [exact Hlw|]. intros Hcm. destruct (Hnc Hcm).
          * cbn [l_unused]. destruct u; try exact I. destruct Hu as [_ Hu]. destruct (Hnr (Hu f F1 Hel (eq_sym F4))).
        + eapply wp_next_; [exact H|exact Hr|]. intros st' w Hw Hrw Hs. cbn [step] in Hs. subst st'.
          apply wp_bind. eapply wp_mono; [apply (write_own (EStart n attrs m) r); [destruct u; try exact I; apply Hu|exact Hrw]| |auto].
        intros u' w0 [-> Hku]. split; [reflexivity|]. split; [apply Hnext; assumption|exact Hku].
    Qed.

    Lemma quiet_from_str : forall i t, rest_text E evs0 C i t -> quiet (from_str_in rec i t).
    Proof.
      intros i t H. specialize (Hrest i t H). unfold from_str_in.
      destruct (fst (run _ _)); try congruence; intros v; eexists; (split; [reflexivity|discriminate]).
    Qed.
    Lemma quiet_visit_unused : forall n a m r pre u ss, C id n -> evs0 = pre ++ EStart n a m :: r -> left_over (EStart n a m) r u ->
      quiet (visit_unused rec fs u ss).
    Proof.
      intros n a m r pre u ss Hid Hevs Hu. unfold visit_unused. destruct u as [| |s ws]; try apply quiet_ret.
      destruct Hu as (l & Hl & Hws).
      assert (H : forall fs', incl fs' fs -> forall i ss, quiet (visit_flatten rec fs' i (emit_text default_econf ws) ss)).
      { induction fs' as [|f fs' IH]; intros Hin i ss'; cbn [visit_flatten]; [apply quiet_ret|].
        apply quiet_bind; [|intros; apply IH; intros g Hg; apply Hin; right; exact Hg].
        destruct (negb (ya_attribute (f_attrs f)) && ya_flatten (f_attrs f))%bool eqn:Hf; [|apply quiet_ret].
        assert (Hrt : forall j, base_of (f_ty f) = BUser j -> rest_text E evs0 C j (emit_text default_econf ws)).
        { intros j Hj. exists id, td, fs, f, n, a, m, pre, r, l, ws.
          split; [exact Hst|]. split; [apply Hin; left; reflexivity|]. repeat (split; [assumption|]). reflexivity. }
        destruct (f_ty f) as [[sm|j]|[sm|j]|b|b]; cbn [base_of] in Hrt; try (intros w; eexists; split; [reflexivity|discriminate]).
        - apply quiet_bind; [apply quiet_from_str, Hrt; reflexivity|intros; apply quiet_ret].
        - apply quiet_bind; [|intros; apply quiet_ret]. intros w. destruct (quiet_from_str j _ (Hrt j eq_refl) w) as (o & Ho & Hf2). rewrite vrun_attempt, Ho.
          destruct o; try congruence; eexists; (split; [reflexivity|discriminate]). }
      apply H, incl_refl.
    Qed.

    Lemma de_struct_wp : forall n a m r st v, at_ st v -> v_rest v = EStart n a m :: r ->
      (forall f, In f fs -> elem_field f -> elabel n = flabel (t_attrs td) f -> elabel n <> root_label td ->
         exists i, base_of (f_ty f) = BUser i /\ (calmed -> False) /\ forall n', C i n') ->
      (forall f, In f fs -> flat_field f = true -> unlike td fs n) -> C id n ->
      vlen v < fuel -> rec_ok (vlen v - 1) ->
      wp (de_struct x E rec fuel td fs) v (fun _ w => at_ (n :: st) w /\ only_text (v_rest w) /\ vlen w <= List.length r) anywhere.
    Proof.
      intros n a m r st v H Hr Hroot Hflat Hid Hfu Hrec. unfold de_struct. apply wp_peek_; [|exact I]. intros e Hp.
      assert (e = EStart n a m) by (unfold vpeek in Hp; rewrite Hr in Hp; congruence). subst e.
      unfold wp. cbn [vrun].
      destruct (if Nat.eqb (v_depth v) 0 then _ else _); [exact I|]. rewrite (proj1 H).
      match goal with |- match vrun ?p v with _ => _ end => change (wp p v (fun _ w => at_ (n :: st) w /\ only_text (v_rest w) /\ vlen w <= List.length r) anywhere) end.
      apply wp_bind. eapply wp_mono; [eapply start_wp; eauto| |auto].
      { unfold init_unused. destruct (has_flatten fs) eqn:Hf; [|exact I]. split; [reflexivity|].
        apply existsb_exists in Hf. destruct Hf as (f & Hf & Hff). exact (Hflat f Hf Hff). }
      intros st' v' [Hlo Hv']. destruct H as (_ & _ & pre & Hevs). rewrite Hr in Hevs.
      apply wp_quiet; [|intros; exact Hv'|exact I].
      apply quiet_bind; [eapply quiet_visit_unused; [exact Hid|exact Hevs|exact Hlo]|intros ss]. apply quiet_bind; [apply quiet_of_res|intros; apply quiet_ret].
    Qed.
  End Struct.

  (** ** Enums *)
  Lemma quiet_unwrap : forall s t, quiet (visit_unwrap x s t).
  Proof. intros s t. unfold visit_unwrap. destruct (parse_simple x s t); intros v; eexists; (split; [reflexivity|discriminate]). Qed.
  Lemma quiet_set_payload : forall t i b cur, quiet (set_payload t i b cur).
  Proof.
    intros t i b cur. unfold set_payload.
    repeat match goal with |- quiet (match ?c with _ => _ end) => destruct c end; try apply quiet_ret;
      intros w; eexists; (split; [reflexivity|discriminate]).
  Qed.

  (** Reading a simple payload, at a start tag or at a text. *)
  Lemma payload_wp : forall s n a m r st v, at_ st v -> v_rest v = EStart n a m :: r ->
    wp (read_payload x s) v (fun _ w => (exists Y, at_ (Y ++ st) w) /\ vlen w <= List.length r) anywhere.
  Proof.
    intros s n a m r st v H Hr. unfold read_payload. apply wp_attempt. unfold read_inner_value.
    set (Q := fun w => (exists Y, at_ (Y ++ st) w) /\ vlen w <= List.length r).
    eapply wp_mono with (Q := fun _ => Q) (QE := Q); [|intros b w Hw; exact Hw|intros w Hw b; exact Hw].
    eapply wp_Next; [exact H|exact Hr|]. intros st' v' Hv' Hr' Hs. cbn [step] in Hs. subst st'.
    assert (Hl : vlen v' = List.length r) by (unfold vlen; rewrite Hr'; reflexivity).
    assert (Hq : Q v') by (split; [exists [n]; exact Hv'|lia]).
    assert (Hend : forall (b : value) X w, at_ (X ++ n :: st) w -> vlen w <= List.length r ->
      wp (bind (expect_end_element n) (fun _ => Ret b)) w (fun _ => Q) Q).
    { intros b X w Hw Hlw. assert (Hall : forall w, near False st w /\ vlen w <= List.length r -> Q w).
      { intros w' [(Y & Hy & _) Hlw']. split; [exists Y; exact Hy|exact Hlw']. }
      eapply wp_mono; [exact (expect_wp value b X n st False w (List.length r) Hw (fun H0 => match H0 with end) Hlw)|intros z0; exact Hall|exact Hall]. }
    apply wp_bind, wp_peek_; [|exact Hq]. intros e Hp.
    assert (Hgen : wp (Next (fun r0 => match r0 with Ok (EChars t) => visit_unwrap x s t | _ => Throw "unable to parse content for field_0" end)) v'
       (fun b w => wp (bind (expect_end_element n) (fun _ => Ret b)) w (fun _ => Q) Q) Q).
    { destruct (inside (n :: st) v' Hv') as [(e' & Hr2 & Hf)|(e' & r2 & Hr2)]; [discriminate| |].
      - unfold wp. cbn [vrun]. assert (Hn : vnext v' = (Some (Er e'), v')) by (unfold vnext; rewrite Hr2, Hf; reflexivity). rewrite Hn. exact Hq.
      - eapply wp_Next; [exact Hv'|exact Hr2|]. intros st2 v2 Hv2 Hrv2 Hs2.
        assert (Hl2 : vlen v2 <= List.length r) by (rewrite <- Hl; unfold vlen; rewrite Hr2, Hrv2; cbn; lia).
        assert (Hq2 : Q v2).
        { split; [|exact Hl2]. destruct e' as [ | |pi|c ca cm|c|t|t|t|t]; cbn [step] in Hs2;
            [destruct Hs2 as [-> _]; exists [n]; exact Hv2|destruct Hs2 as [-> _]; exists [n]; exact Hv2|destruct Hs2 as [-> _]; exists [n]; exact Hv2|subst st2; exists [c; n]; exact Hv2
            |injection Hs2 as <- <-; exists []; exact Hv2|destruct Hs2 as [-> _]; exists [n]; exact Hv2..]. }
        destruct e'; try exact Hq2. cbn [step] in Hs2. destruct Hs2 as [-> _].
        apply wp_quiet; [apply quiet_unwrap| |exact Hq2]. intros b. apply (Hend b []); [exact Hv2|exact Hl2]. }
    destruct e; try exact Hgen.
    apply wp_quiet; [apply quiet_unwrap| |exact Hq]. intros b. apply (Hend b []); [exact Hv'|lia].
  Qed.

  Lemma payload_text_wp : forall s t r st v, at_ st v -> v_rest v = EChars t :: r ->
    wp (read_payload x s) v (fun b w => at_ st w /\ v_rest w = r /\ exists m, b = Er m) anywhere.
  Proof.
    intros s t r st v H Hr. unfold read_payload. apply wp_attempt. unfold read_inner_value.
    eapply wp_Next; [exact H|exact Hr|]. intros st' v' Hv' Hr' [-> _]. cbn. intros m. split; [exact Hv'|].
    split; [exact Hr'|eauto].
  Qed.

  Section Enum.
    Variable id : nat.
    Variable td : typedef.
    Variable vs : list variant.
    Variable d : value.
    Variable n0 : name.
    Hypothesis Htd : nth_error E id = Some td.
    Hypothesis Hbody : t_body td = DEnum vs d.
    Hypothesis Hvs : forall s i fl t, variant_for vs s = Some (i, VbNew fl t) ->
        ya_tag (t_attrs td) = None /\ n_local n0 <> s /\
        (forall i1, base_of t = BUser i1 -> (forall n', n_local n' = s -> C i1 n') /\ (In (EChars s) evs0 -> newtype E i1)).

    Lemma named_never : forall s i fs', variant_for vs s <> Some (i, VbNamed fs').
    Proof.
      intros s i fs' H. unfold variant_for in H. destruct (find _ _) as [[j v]|] eqn:Hf; [|discriminate].
      apply find_some in Hf. destruct Hf as [_ Hf]. cbn [snd] in Hf. inversion H; subst. rewrite H2 in Hf. discriminate.
    Qed.

    Lemma unit_text : forall s i, variant_for vs s = Some (i, VbUnit) -> from_text E id.
    Proof. intros s i H. exists td. split; [exact Htd|]. rewrite Hbody. eauto. Qed.

    (** The place in the own element [n0]. *)
    Definition inner (B0 : list name) (N : nat) (w : vstate) : Prop :=
      exists X, at_ (X ++ n0 :: B0) w /\ vlen w <= N /\ (leaf_name evs0 n0 -> X = [] /\ only_text (v_rest w)).

    Lemma inner_left : forall B0 N w, inner B0 N w -> from_text E id -> left_at id n0 B0 N w.
    Proof. intros B0 N w (X & H1 & H2 & H3) Hf. exists X. split; [exact H1|]. split; [exact H2|]. intros Hl. apply H3, Hl, Hf. Qed.

    (** A text in front: a variant without a payload, or one with a payload of simple type. *)
    Lemma text_arm_wp : forall B0 N w t r cur, inner B0 N w -> v_rest w = EChars t :: r ->
      wp (match variant_for vs t with Some (i, b) => enum_arm x rec i b cur | None => Ret (cur, false) end) w
         (fun b w' => inner B0 N w' /\ (snd b = true -> from_text E id)) anywhere.
    Proof.
      intros B0 N w t r cur Hw Hr. assert (Hs : inner B0 N w /\ (false = true -> from_text E id)) by (split; [exact Hw|discriminate]).
      destruct (variant_for vs t) as [[i [|fl ty|fs']]|] eqn:Hv; cbn [enum_arm]; try exact Hs.
      - split; [exact Hw|]. intros _. eapply unit_text; exact Hv.
      - rewrite fbase_base. destruct Hw as (X & Hx & Hl & Hp). destruct (base_of ty) as [s|i1] eqn:Hb.
        + apply wp_bind. eapply wp_mono; [eapply payload_text_wp; [exact Hx|exact Hr]| |auto].
          intros b w' (W1 & W2 & e & ->). split; [|discriminate]. exists X. split; [exact W1|].
          assert (Hlr : vlen w = S (List.length r)) by (unfold vlen; rewrite Hr; reflexivity).
          split; [unfold vlen in *; rewrite W2; lia|]. intros Hleaf. destruct (Hp Hleaf) as [-> Ht]. split; [reflexivity|].
          rewrite Hr in Ht. rewrite W2. exact Ht.
        + apply wp_bind. eapply wp_mono; [eapply Hnew; [|exact Hr]|intros a v' []|auto].
          apply (Hvs t i fl ty Hv); [exact Hb|eapply at_in; eauto].
    Qed.

    Definition tail (fl : nat) (ln : string) (sd : nat) (cur1 : option value) : prog (option value) :=
      bind peek_ (fun e2 => match e2 with
              | EChars content =>
                  bind (match find_variant vs 0 content with
                        | Some (i, b) => enum_arm x rec i b cur1
                        | None => Ret (cur1, false)
                        end)
                    (fun r2 => let '(cur2, brk2) := r2 in if brk2 then Ret cur2 else enum_loop x rec fl td vs ln sd cur2)
              | _ => enum_loop x rec fl td vs ln sd cur1
              end).

    Lemma tail_wp : forall fl ln sd cur B0 N w Q, inner B0 N w ->
      (forall cur' w', inner B0 N w' -> wp (enum_loop x rec fl td vs ln sd cur') w' (fun _ => Q) anywhere) ->
      (forall w', left_at id n0 B0 N w' -> Q w') -> wp (tail fl ln sd cur) w (fun _ => Q) anywhere.
    Proof.
      intros fl ln sd cur B0 N w Q Hw Hgo HQ. unfold tail. apply wp_peek_; [|exact I]. intros e2 Hp.
      destruct e2; try (apply Hgo; exact Hw). destruct (peek_rest _ _ Hp ltac:(discriminate)) as [r2 Hr2].
      rewrite find_variant_for. apply wp_bind. eapply wp_mono; [eapply text_arm_wp; [exact Hw|exact Hr2]| |auto].
      intros [cur2 []] w' [Hw' Hf]; [|apply Hgo; exact Hw']. apply HQ, inner_left; [exact Hw'|apply Hf; reflexivity].
    Qed.

    Lemma element_named : forall n attrs nm s i fl t, enum_element_name (ya_tag (t_attrs td)) n attrs = Ok nm ->
      variant_for vs s = Some (i, VbNew fl t) -> nm = n_local n.
    Proof. intros n attrs nm s i fl t H Hv. destruct (Hvs _ _ _ _ Hv) as [Ht _]. rewrite Ht in H. cbn in H. congruence. Qed.

    Lemma enum_wp : forall fl B0 X cur v, at_ (X ++ n0 :: B0) v -> (leaf_name evs0 n0 -> X = [] /\ only_text (v_rest v)) ->
      vlen v < fl -> rec_ok (vlen v) ->
      wp (enum_loop x rec fl td vs (n_local n0) (List.length B0) cur) v (fun _ w => left_at id n0 B0 (vlen v) w) anywhere.
    Proof.
      induction fl as [|fl IH]; intros B0 X cur v H HP Hl Hrec; [lia|]. cbn [enum_loop].
      apply wp_peek_; [|exact I]. intros e Hp.
      destruct (inside _ _ H) as [(m & Hr & Hf)|(e' & r & Hr)]; [destruct X; discriminate|unfold vpeek in Hp; rewrite Hr, Hf in Hp; discriminate|].
      assert (e' = e) by (unfold vpeek in Hp; rewrite Hr in Hp; congruence). subst e'.
      assert (Hvl : vlen v = S (List.length r)) by (unfold vlen; rewrite Hr; reflexivity).
      assert (Hgo : forall cur w, inner B0 (List.length r) w ->
        wp (enum_loop x rec fl td vs (n_local n0) (List.length B0) cur) w (fun _ w => left_at id n0 B0 (vlen v) w) anywhere).
      { intros cur' w (Y & Hy & Hlw & Hpy). eapply wp_mono; [eapply IH; [exact Hy|exact Hpy|lia|eapply rec_ok_le; [exact Hrec|lia]]| |auto].
        intros _ w' (Z & Hz & Hlz & Hpz). exists Z. split; [exact Hz|]. split; [lia|exact Hpz]. }
      assert (HQ : forall w, left_at id n0 B0 (List.length r) w -> left_at id n0 B0 (vlen v) w).
      { intros w (Z & Hz & Hlz & Hpz). exists Z. split; [exact Hz|]. split; [lia|exact Hpz]. }
      assert (Hends := proj1 (proj2 H)). rewrite Hr in Hends.
      destruct e as [ | |pi|n attrs m|n|t|t|t|t]; cbn [ends_in] in Hends; try contradiction; try exact I.
      - (* start *)
        assert (Hnl : leaf_name evs0 n0 -> False) by (intros Hleaf; destruct (HP Hleaf) as [_ Ht]; rewrite Hr in Ht; exact Ht).
        assert (Hinn : forall Y w, at_ (Y ++ X ++ n0 :: B0) w -> vlen w <= List.length r -> inner B0 (List.length r) w).
        { intros Y w Hw Hlw. exists (Y ++ X). rewrite <- app_assoc. split; [exact Hw|]. split; [exact Hlw|]. intros Hleaf; destruct (Hnl Hleaf). }
        destruct (enum_element_name _ _ _) as [nm|e] eqn:Hnm; [|exact I]. cbn [of_res bind].
        rewrite find_variant_for. apply wp_bind.
        assert (Htail : forall cur1 w, inner B0 (List.length r) w -> wp (tail fl (n_local n0) (List.length B0) cur1) w (fun _ => left_at id n0 B0 (vlen v)) anywhere).
        { intros cur1 w Hw. eapply tail_wp; [exact Hw|exact Hgo|exact HQ]. }
        destruct (variant_for vs nm) as [[i [|fl' ty|fs']]|] eqn:Hv; cbn [enum_arm].
        + apply inner_left; [|eapply unit_text; exact Hv]. exists X. split; [exact H|]. split; [lia|exact HP].
        + assert (Hn := element_named _ _ _ _ _ _ _ Hnm Hv). subst nm. rewrite fbase_base.
          destruct (base_of ty) as [s|i1] eqn:Hb.
          * apply wp_bind. eapply wp_mono; [eapply payload_wp; [exact H|exact Hr]| |auto].
            intros b w [[Y Hy] Hlw]. destruct b as [b|b]; [|apply Htail, (Hinn Y); assumption].
            apply wp_bind, wp_quiet; [apply quiet_set_payload| |exact I]. intros c. apply Htail, (Hinn Y); assumption.
          * assert (Hc : C i1 n) by (apply (Hvs _ _ _ _ Hv); [exact Hb|reflexivity]).
            apply wp_bind. eapply wp_mono; [apply (Hrec i1 _ v n attrs m r Hc H Hr (le_n _))| |auto]. cbn beta.
            intros b v' Hv'. apply wp_bind, wp_quiet; [apply quiet_set_payload| |exact I]. intros c.
            destruct Hv' as [->|(Z & Hz & Hlz & _)].
            -- eapply wp_Next; [exact H|exact Hr|]. intros st' w Hw Hrw Hs. cbn [step] in Hs. subst st'.
               apply Htail, (Hinn [n]); [exact Hw|unfold vlen; rewrite Hrw; lia].
            -- eapply (wp_Next_in _ _ _ Z n _ False); [exact Hz|intros []|]. intros e w (Y & Hy & _) Hle _. apply Htail, (Hinn Y); [exact Hy|lia].
        + exfalso. eapply named_never; exact Hv.
        + eapply wp_Next; [exact H|exact Hr|]. intros st' w Hw Hrw Hs. cbn [step] in Hs. subst st'.
          apply Htail, (Hinn [n]); [exact Hw|unfold vlen; rewrite Hrw; lia].
      - (* end *)
        unfold wp. cbn [vrun]. rewrite (proj1 H).
        destruct X as [|c X].
        + cbn [app] in H. cbn [app List.length]. destruct Hends as [-> _]. rewrite String.eqb_refl, Nat.eqb_refl. cbn [andb vrun].
          exists []. split; [exact H|]. split; [lia|]. intros _. split; [reflexivity|rewrite Hr; exact I].
        + replace (Nat.eqb (List.length ((c :: X) ++ n0 :: B0)) (S (List.length B0))) with false.
          2: { symmetry; apply Nat.eqb_neq. rewrite app_length. cbn [List.length]. lia. }
          rewrite andb_false_r.
          match goal with |- match vrun ?p v with _ => _ end => change (wp p v (fun _ w => left_at id n0 B0 (vlen v) w) anywhere) end.
          eapply wp_Next; [exact H|exact Hr|]. intros st' w Hw Hrw Hs. cbn [step app] in Hs. injection Hs as <- <-.
          apply Hgo. exists X. split; [exact Hw|]. split; [unfold vlen; rewrite Hrw; lia|].
          intros Hleaf. destruct (HP Hleaf) as [Hx _]. discriminate.
      - (* text *)
        eapply wp_Next; [exact H|exact Hr|]. intros st' w Hw Hrw Hs. cbn [step] in Hs. destruct Hs as [-> _].
        apply Hgo. exists X. split; [exact Hw|]. split; [unfold vlen; rewrite Hrw; lia|].
        intros Hleaf. destruct (HP Hleaf) as [-> Ht]. split; [reflexivity|]. rewrite Hr in Ht. rewrite Hrw. exact Ht.
    Qed.

    Lemma de_enum_wp : forall dflt a m r st v, at_ st v -> v_rest v = EStart n0 a m :: r -> vlen v < fuel -> rec_ok (vlen v - 1) ->
      wp (de_enum x rec fuel td vs dflt) v (fun _ w => w = v \/ left_at id n0 st (List.length r) w) anywhere.
    Proof.
      intros dflt a m r st v H Hr Hfu Hrec. unfold de_enum. apply wp_peek_; [|exact I]. intros e Hp.
      assert (e = EStart n0 a m) by (unfold vpeek in Hp; rewrite Hr in Hp; congruence). subst e.
      unfold wp. cbn [vrun]. destruct (namespace_check _ _ _ _); [exact I|]. rewrite (proj1 H).
      match goal with |- match vrun ?p v with _ => _ end => change (wp p v (fun _ w => w = v \/ left_at id n0 st (List.length r) w) anywhere) end.
      assert (Hvl : vlen v = S (List.length r)) by (unfold vlen; rewrite Hr; reflexivity).
      apply wp_bind. eapply wp_mono with (Q := fun _ w => w = v \/ left_at id n0 st (List.length r) w) (QE := anywhere); [|intros b w Hw; exact Hw|auto].
      destruct fuel as [|fl] eqn:Hfuel; [lia|]. cbn [enum_loop].
      apply wp_peek_; [|exact I]. intros e He. assert (e = EStart n0 a m) by (unfold vpeek in He; rewrite Hr in He; congruence). subst e.
      destruct (enum_element_name _ _ _) as [nm|e] eqn:Hnm; [|exact I]. cbn [of_res bind].
      rewrite find_variant_for. apply wp_bind.
      destruct (variant_for vs nm) as [[i [|fl' ty|fs']]|] eqn:Hv; cbn [enum_arm].
      - left; reflexivity.
      - exfalso. assert (Hn := element_named _ _ _ _ _ _ _ Hnm Hv). destruct (Hvs _ _ _ _ Hv) as (_ & Hx & _). congruence.
      - exfalso. eapply named_never; exact Hv.
      - assert (Hleaf := at_leaf _ _ _ _ _ _ H Hr).
        eapply wp_Next; [exact H|exact Hr|]. intros st' w Hw Hrw Hs. cbn [step] in Hs. subst st'.
        change (wp (tail fl (n_local n0) (List.length st) None) w (fun _ w => w = v \/ left_at id n0 st (List.length r) w) anywhere).
        apply (tail_wp fl (n_local n0) (List.length st) None st (List.length r) w (fun w => w = v \/ left_at id n0 st (List.length r) w)).
        + exists []. split; [exact Hw|]. split; [unfold vlen; rewrite Hrw; lia|]. rewrite Hrw. auto.
        + intros cur' w' (Y & Hy & Hlw & Hpy). eapply wp_mono; [eapply enum_wp; [exact Hy|exact Hpy|lia|eapply rec_ok_le; [exact Hrec|lia]]| |auto].
          intros _ w2 (Z & Hz & Hlz & Hpz). right. exists Z. split; [exact Hz|]. split; [lia|exact Hpz].
        + intros w' Hw'. right; exact Hw'.
    Qed.
  End Enum.
End De.

Lemma prim_wp : forall x E id td k n a m r st v, nth_error E id = Some td -> t_body td = DPrim k -> at_ st v -> v_rest v = EStart n a m :: r ->
  wp (de_prim x td k) v (fun _ w => left_at E id n st (List.length r) w) anywhere.
Proof.
  intros x E id td k n a m r st v Htd Hb H Hr. unfold de_prim, wp. cbn [vrun].
  assert (Hp : vpeek v = Ok (EStart n a m)) by (unfold vpeek; rewrite Hr; reflexivity). rewrite Hp.
  match goal with |- match vrun ?p v with _ => _ end => change (wp p v (fun _ w => left_at E id n st (List.length r) w) anywhere) end.
  assert (Hleaf := at_leaf _ _ _ _ _ _ H Hr).
  eapply wp_next_; [exact H|exact Hr|]. intros st' w Hw Hrw Hs. cbn [step] in Hs. subst st'.
  apply wp_quiet; [intros z; cbn [vrun]; apply quiet_of_res| |exact I]. intros b.
  exists []. split; [exact Hw|]. split; [unfold vlen; rewrite Hrw; lia|]. intros Hl. split; [reflexivity|].
  rewrite Hrw. apply Hleaf, Hl. exists td. split; [exact Htd|]. rewrite Hb. exact I.
Qed.

Theorem de_wp : forall x E C F, well_named E evs0 C ->
  (forall i t f, attr_text E evs0 i t -> F <= f -> from_str x E f i (attr_document E i t) <> OFuel) ->
  (forall i t f, rest_text E evs0 C i t -> F <= f -> from_str x E f i t <> OFuel) ->
  forall fuel bound, bound + F + 1 < fuel -> rec_ok E C (de x E fuel) bound.
Proof.
  intros x E C F HC HA HR. induction fuel as [|fuel IH]; intros bound Hb; [lia|].
  intros id st v n a m r Hid H Hr Hl. cbn [de]. unfold de_body.
  destruct (nth_error E id) as [td|] eqn:Htd; [|exact I].
  assert (Hc := HC id n td Hid Htd).
  assert (Hvl : vlen v = S (List.length r)) by (unfold vlen; rewrite Hr; reflexivity).
  assert (Hrec : rec_ok E C (de x E fuel) (vlen v - 1)) by (apply IH; lia).
  assert (Hattr : forall i t, attr_text E evs0 i t -> fst (run (de x E fuel i) (d_init (parse_text (attr_document E i t)))) <> OFuel).
  { intros i t Ht. apply (HA i t fuel Ht). lia. }
  assert (Hrest : forall i t, rest_text E evs0 C i t -> fst (run (de x E fuel i) (d_init (parse_text t))) <> OFuel).
  { intros i t Ht. apply (HR i t fuel Ht). lia. }
  assert (Hnew : forall i v t r, newtype E i -> v_rest v = EChars t :: r -> wp (de x E fuel i) v (fun _ _ => False) anywhere).
  { intros i w t r' Hi Hw. destruct fuel as [|f]; [lia|]. cbn [de]. unfold de_body.
    destruct (nth_error E i) as [tdi|] eqn:Hti; [|exact I]. destruct (Hi tdi Hti) as [k ->].
    unfold de_prim, wp. cbn [vrun]. assert (Hp : vpeek w = Ok (EChars t)) by (unfold vpeek; rewrite Hw; reflexivity). rewrite Hp. exact I. }
  destruct (t_body td) as [fs|vs d|k] eqn:Hbody.
  - eapply wp_mono; [eapply (de_struct_wp x E C (de x E fuel) fuel Hattr Hrest id td fs (conj Htd Hbody)) with
        (calmed := settled E evs0 (t_attrs td) fs /\ unlike td fs n); [| |exact H|exact Hr| | |exact Hid|lia|exact Hrec]| |auto].
    + intros [Hs _]; exact Hs.
    + intros f i Hf Hel Hbf. destruct (Hc f Hf) as [_ Hcf]. specialize (Hcf Hel). rewrite Hbf in Hcf. exact Hcf.
    + intros f Hf Hel Hlab Hnr. destruct (Hc f Hf) as [_ Hcf]. specialize (Hcf Hel).
      destruct (base_of (f_ty f)) as [s|i]; [exfalso; apply Hnr, Hcf, Hlab|].
      exists i. split; [reflexivity|]. split; [intros [_ Hu]; apply Hnr, (Hu f Hf Hel Hlab)|].
      destruct Hcf as [_ [[_ Hu]|Hall]]; [exfalso; apply Hnr, (Hu f Hf Hel Hlab)|exact Hall].
    + intros f Hf. apply (Hc f Hf).
    + intros _ w (W1 & W2 & W3). right. exists []. split; [exact W1|]. split; [exact W3|]. intros _. split; [reflexivity|exact W2].
  - eapply de_enum_wp; eauto. lia.
  - eapply wp_mono; [eapply prim_wp; eauto| |auto]. intros b w Hw. right; exact Hw.
Qed.
End Doc.

Lemma markup_vis : forall s, markup s = vis (s_evs s).
Proof. intros s. unfold markup, vis. apply filter_ext. intros []; reflexivity. Qed.

Theorem C17_named_events : forall x E C F id s fuel, parsed_source s -> well_named E (markup s) C ->
  (forall n, root_named s n -> C id n) ->
  (forall i t f, attr_text E (markup s) i t -> F <= f -> from_str x E f i (attr_document E i t) <> OFuel) ->
  (forall i t f, rest_text E (markup s) C i t -> F <= f -> from_str x E f i t <> OFuel) ->
  List.length (s_evs s) + F + 2 <= fuel -> from_events x E fuel id s <> OFuel.
Proof.
  intros x E C F id s fuel Hs HC Hid HA HR Hfu. apply run_nofuel. destruct (parsed_view s Hs) as [Ha [(n & a & m & r & Hr)|[Hr [e He]]]].
  - assert (Hl : vlen (view (d_init s)) <= List.length (s_evs s)) by (unfold vlen; apply vis_length).
    assert (Hat : at_ (markup s) [] (view (d_init s))).
    { destruct Ha as [H1 H2]. split; [exact H1|]. split; [exact H2|]. exists []. rewrite markup_vis. reflexivity. }
    assert (Hroot : root_named s n).
    { exists a, m, r. fold (markup s). rewrite markup_vis. exact Hr. }
    assert (Hk := de_wp (markup s) x E C F HC HA HR fuel (vlen (view (d_init s))) ltac:(lia) id [] _ n a m r (Hid n Hroot) Hat Hr (le_n _)).
    unfold wp in Hk. destruct (vrun _ _) as [[]]; cbn [fst]; congruence || contradiction.
  - destruct fuel as [|fuel]; [lia|].
    assert (Hp : vpeek (view (d_init s)) = Er e) by (unfold vpeek; rewrite Hr, He; reflexivity).
    cbn [de]. unfold de_body. destruct (nth_error E id) as [td|]; [|discriminate].
    destruct (t_body td); unfold de_struct, de_enum, de_prim; rewrite ?vrun_peek_; cbn [vrun]; rewrite Hp; discriminate.
Qed.

Theorem C17_named_text : forall x E C F id s fuel, well_named E (markup (parse_text s)) C ->
  (forall n, root_named (parse_text s) n -> C id n) ->
  (forall i t f, attr_text E (markup (parse_text s)) i t -> F <= f -> from_str x E f i (attr_document E i t) <> OFuel) ->
  (forall i t f, rest_text E (markup (parse_text s)) C i t -> F <= f -> from_str x E f i t <> OFuel) ->
  List.length (s_evs (parse_text s)) + F + 2 <= fuel -> from_str x E fuel id s <> OFuel.
Proof. intros x E C F id s fuel H1 H2 H3 H4 H5. unfold from_str. eapply C17_named_events; eauto. apply parse_parsed. Qed.
