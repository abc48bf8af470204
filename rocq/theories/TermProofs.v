(** * C17: deserialization of calm types returns for every document. *)
From Verif Require Import Str Num Xml XmlText Reader Schema De RunFacts SpecReader ReaderProofs SpecTree TreeFacts
  SpecStruct SpecSafe SafeProofs SpecTerm.
Open Scope list_scope.

(** ** The parser delivers parsed sources *)
Lemma stack_after_app : forall a b st, stack_after st (a ++ b) =
  match stack_after st a with Some st' => stack_after st' b | None => None end.
Proof.
  induction a as [|e a IH]; intros b st; [reflexivity|]. cbn [app stack_after].
  destruct e; auto; destruct st as [|n' st']; auto. destruct (name_eqb n n'); auto.
Qed.
Lemma name_eqb_same : forall n, name_eqb n n = true.
Proof. intros n; apply name_eqb_eq; reflexivity. Qed.

Definition tinv (st : pst) : Prop :=
  stack_after [] (p_out st) = Some (p_names st) /\ List.length (p_names st) = List.length (p_stack st) /\
  (p_seen st = true -> exists n a m, In (EStart n a m) (p_out st)).

Lemma tinv_end_raw : forall st m, tinv st -> tinv (end_raw st m).
Proof. intros st m H. unfold end_raw. destruct (unesc (p_raw st)); exact H. Qed.
Lemma tinv_flush : forall st m, tinv st -> tinv (flush st m).
Proof.
  intros st m H. unfold flush. destruct (p_nonws st); [|exact H].
  destruct (p_stack st) eqn:Hs; [exact H|]. destruct H as (H1 & H2 & H3). unfold tinv; cbn [p_out p_stack p_names p_seen].
  rewrite Hs in *. repeat split.
  - rewrite stack_after_app, H1. cbn [stack_after]. destruct (p_names st); [discriminate|reflexivity].
  - exact H2.
  - intros Hp. destruct (H3 Hp) as (n & a & m' & Hin). exists n, a, m'. apply in_or_app; left; exact Hin.
Qed.
Lemma tinv_start : forall st q ats b, tinv st -> tinv (start_tag st q ats b).
Proof.
  intros st q ats b H. unfold start_tag. destruct (bad_tag q ats); [exact H|].
  destruct (resolve_elem _ q); [|exact H]. destruct (resolve_attrs _ ats); [|exact H].
  destruct H as (H1 & H2 & H3). destruct b; unfold tinv; cbn [p_out p_stack p_names p_seen]; repeat split.
  - rewrite stack_after_app, H1. cbn [stack_after]. rewrite name_eqb_same. reflexivity.
  - exact H2.
  - intros _. do 3 eexists. apply in_or_app; right; left; reflexivity.
  - rewrite stack_after_app, H1. reflexivity.
  - cbn [List.length]. rewrite H2. reflexivity.
  - intros _. do 3 eexists. apply in_or_app; right; left; reflexivity.
Qed.
Lemma tinv_end : forall st q, tinv st -> tinv (end_tag st q).
Proof.
  intros st q H. unfold end_tag. destruct (p_stack st) as [|s ss] eqn:Hs; [exact H|].
  destruct (p_names st) as [|n ns] eqn:Hn; [exact H|]. destruct (p_nss st); [exact H|].
  destruct (String.eqb s q); [|exact H]. destruct H as (H1 & H2 & H3). rewrite Hs, Hn in *.
  unfold tinv; cbn [p_out p_stack p_names p_seen]. repeat split.
  - rewrite stack_after_app, H1. cbn [stack_after]. rewrite name_eqb_same. reflexivity.
  - cbn [List.length] in H2. lia.
  - intros Hp. destruct (H3 Hp) as (n' & a & m' & Hin). exists n', a, m'. apply in_or_app; left; exact Hin.
Qed.
Lemma tinv_mode : forall st m, tinv st -> tinv (set_mode st m).
Proof. intros st m H; exact H. Qed.
Lemma tinv_fail : forall st m, tinv st -> tinv (pfail st m).
Proof. intros st m H; exact H. Qed.

Lemma tinv_step : forall st c, tinv st -> tinv (pstep st c).
Proof.
  intros st c H. unfold pstep.
  destruct (illegal_char c); [destruct (p_mode st); auto using tinv_fail|].
  destruct (p_mode st) as [ | |acc|nm ats|nm ats acc|nm ats an|nm ats an|nm ats an q acc|nm ats|nm ats|acc|acc|acc|tl|acc|acc| |msg];
    repeat match goal with
    | |- tinv (if ?b then _ else _) => destruct b
    | |- tinv (match ?b with Some _ => _ | None => _ end) => destruct b
    end;
    auto using tinv_mode, tinv_fail, tinv_end_raw, tinv_flush, tinv_start, tinv_end.
  all: try (destruct (p_stack st); exact H).
  all: try exact H.
  destruct H as (H1 & H2 & H3). unfold tinv; cbn [p_out p_stack p_names p_seen]. repeat split; [|exact H2|].
  - rewrite stack_after_app, H1. reflexivity.
  - intros Hp. destruct (H3 Hp) as (n' & a & m' & Hin). exists n', a, m'. apply in_or_app; left; exact Hin.
Qed.

Theorem parse_parsed : forall s, parsed_source (parse_text s).
Proof.
  intros s. unfold parse_text.
  assert (H : tinv (prun p0 s)).
  { assert (H0 : tinv p0) by (repeat split; discriminate). revert H0. generalize p0 as st.
    induction s as [|c s IH]; intros st H; [exact H|]. cbn [prun]. apply IH. apply tinv_step. exact H. }
  revert H. generalize (prun p0 s) as st. intros st (H1 & H2 & H3). unfold pfinish.
  assert (Herr : forall m, parsed_source (Stream (p_out st) (FErr m))).
  { intros m. exists (p_names st). split; [exact H1|discriminate]. }
  destruct (p_mode st); try apply Herr.
  unfold end_raw. destruct (unesc (p_raw st)) as [t|]; [|apply Herr].
  destruct (p_stack st) eqn:Hs; [|apply Herr].
  destruct (_ || _)%bool; [apply Herr|]. destruct (p_seen st); [|apply Herr].
  destruct (p_names st); [|discriminate]. exists []. split; [exact H1|auto].
Qed.

(** ** Views with a stack *)
Fixpoint ends_in (st : list name) (l : list event) (f : fin) : Prop :=
  match l with
  | [] => f = FEnd -> st = []
  | EStart n _ _ :: r => ends_in (n :: st) r f
  | EEnd n :: r => match st with n' :: st' => n = n' /\ ends_in st' r f | [] => False end
  | (EChars _ | ECData _ | EWhitespace _) :: r => st <> [] /\ ends_in st r f
  | _ => False
  end.

Definition at_ (st : list name) (v : vstate) : Prop :=
  v_depth v = List.length st /\ ends_in st (v_rest v) (v_fin v).
Definition above (B : list name) (v : vstate) : Prop := exists X, at_ (X ++ B) v.
Definition vlen (v : vstate) : nat := List.length (v_rest v).

Lemma stack_ends : forall l st st' f, stack_after st l = Some st' -> (f = FEnd -> st' = []) ->
  ends_in st (vis l) f.
Proof.
  induction l as [|e l IH]; intros st st' f H Hf; [inversion H; subst; exact Hf|].
  unfold vis. cbn [filter]. destruct e; cbn [visible invisible negb ends_in stack_after] in *; try discriminate;
    try (eapply IH; eassumption).
  - destruct st as [|n' st1]; [discriminate|]. destruct (name_eqb n n') eqn:Hn; [|discriminate].
    apply name_eqb_eq in Hn. split; [exact Hn|]. eapply IH; eassumption.
  - destruct st; [discriminate|]. split; [discriminate|]. eapply IH; eassumption.
  - destruct st; [discriminate|]. split; [discriminate|]. eapply IH; eassumption.
  - destruct st; [discriminate|]. split; [discriminate|]. eapply IH; eassumption.
Qed.

Lemma next_at : forall st v e r, at_ st v -> v_rest v = e :: r ->
  exists st' v', vnext v = (Some (Ok e), v') /\ v_rest v' = r /\ at_ st' v' /\
    match e with
    | EStart n _ _ => st' = n :: st
    | EEnd n => st = n :: st'
    | _ => st' = st /\ st <> []
    end.
Proof.
  intros st [d l f] e r [Hd He] Hr. cbn [v_depth v_rest v_fin] in *. subst l d. unfold vnext. cbn [v_rest v_depth v_fin].
  destruct e; cbn [ends_in bump] in *; try contradiction.
  - exists (n :: st). eexists. split; [reflexivity|]. split; [reflexivity|]. split; [split; [reflexivity|exact He]|reflexivity].
  - destruct st as [|n' st]; [contradiction|]. destruct He as [-> He]. cbn [List.length].
    exists st. eexists. split; [reflexivity|]. split; [reflexivity|]. split; [split; [reflexivity|exact He]|reflexivity].
  - destruct He as [Hne He]. exists st. eexists. split; [reflexivity|]. split; [reflexivity|]. split; [split; [reflexivity|exact He]|auto].
  - destruct He as [Hne He]. exists st. eexists. split; [reflexivity|]. split; [reflexivity|]. split; [split; [reflexivity|exact He]|auto].
  - destruct He as [Hne He]. exists st. eexists. split; [reflexivity|]. split; [reflexivity|]. split; [split; [reflexivity|exact He]|auto].
Qed.

(** Inside an element the document does not end. *)
Lemma inside : forall st v, at_ st v -> st <> [] ->
  (exists m, v_rest v = [] /\ v_fin v = FErr m) \/ (exists e r, v_rest v = e :: r).
Proof.
  intros st [d l f] [Hd He] Hne. cbn in *. destruct l as [|e l]; [left|right; eauto].
  destruct f as [|m]; [exfalso; auto|eauto].
Qed.

Definition keepE {A} (B : list name) (p : prog A) (v : vstate) : Prop :=
  match vrun p v with
  | (OFuel, _) => False
  | (OPanic _, _) => True
  | (_, v') => above B v' /\ vlen v' <= vlen v
  end.
Definition keep {A} (B : list name) (p : prog A) (v : vstate) : Prop :=
  match vrun p v with
  | (OFuel, _) => False
  | (OPanic _, _) | (OErr _, _) => True
  | (OOk _, v') => above B v' /\ vlen v' <= vlen v
  end.

Lemma keepE_keep : forall A B (p : prog A) v, keepE B p v -> keep B p v.
Proof. unfold keepE, keep. intros A B p v. destruct (vrun p v) as [[]]; auto. Qed.

Lemma keep_bind : forall A C B (p : prog A) (f : A -> prog C) v, keep B p v ->
  (forall a v', above B v' -> vlen v' <= vlen v -> vrun p v = (OOk a, v') -> keep B (f a) v') -> keep B (bind p f) v.
Proof.
  unfold keep. intros A C B p f v H Hf. rewrite vrun_bind. destruct (vrun p v) as [[a|m|m|] v'] eqn:Hr; auto.
  destruct H as [H1 H2]. specialize (Hf a v' H1 H2 eq_refl). destruct (vrun (f a) v') as [[b|m|m|] v'']; auto.
  destruct Hf; split; [assumption|lia].
Qed.
Lemma keepE_bind : forall A C B (p : prog A) (f : A -> prog C) v, keepE B p v ->
  (forall a v', above B v' -> vlen v' <= vlen v -> vrun p v = (OOk a, v') -> keepE B (f a) v') -> keepE B (bind p f) v.
Proof.
  unfold keepE. intros A C B p f v H Hf. rewrite vrun_bind. destruct (vrun p v) as [[a|m|m|] v'] eqn:Hr; auto.
  destruct H as [H1 H2]. specialize (Hf a v' H1 H2 eq_refl). destruct (vrun (f a) v') as [[b|b|m|] v'']; auto;
    destruct Hf; split; try assumption; lia.
Qed.
Lemma keepE_attempt : forall A B (p : prog A) v, keepE B p v -> keepE B (attempt p) v.
Proof. unfold keepE. intros A B p v H. rewrite vrun_attempt. destruct (vrun p v) as [[a|m|m|] v']; auto. Qed.
Lemma keepE_ret : forall A B (a : A) v, above B v -> keepE B (Ret a) v.
Proof. intros A B a v H. split; [exact H|lia]. Qed.
Lemma keepE_throw : forall A B m v, above B v -> @keepE A B (Throw m) v.
Proof. intros A B m v H. split; [exact H|lia]. Qed.
Lemma keepE_of_res : forall A B (r : res A) v, above B v -> keepE B (of_res r) v.
Proof. intros A B [a|m] v H; [apply keepE_ret|apply keepE_throw]; exact H. Qed.
Lemma above_refl : forall B v, at_ B v -> above B v.
Proof. intros B v H. exists []. exact H. Qed.
Lemma above_cons : forall B X c v, at_ (X ++ c :: B) v -> above B v.
Proof. intros B X c v H. exists (X ++ [c]). rewrite <- app_assoc. exact H. Qed.
Lemma above_up : forall B c v, above (c :: B) v -> above B v.
Proof. intros B c v [X H]. eapply above_cons; eauto. Qed.
Lemma above_app : forall B X v, above (X ++ B) v -> above B v.
Proof. intros B X v [Y H]. exists (Y ++ X). rewrite <- app_assoc. exact H. Qed.

Definition keepN {A} (B : list name) (N : nat) (p : prog A) (v : vstate) : Prop :=
  match vrun p v with
  | (OFuel, _) => False
  | (OPanic _, _) | (OErr _, _) => True
  | (OOk _, v') => above B v' /\ vlen v' <= N
  end.
Lemma keepN_bind : forall A C B N M (p : prog A) (f : A -> prog C) v, keepN B N p v ->
  (forall a v', above B v' -> vlen v' <= N -> vrun p v = (OOk a, v') -> keepN B M (f a) v') -> keepN B M (bind p f) v.
Proof.
  unfold keepN. intros A C B N M p f v H Hf. rewrite vrun_bind. destruct (vrun p v) as [[a|m|m|] v'] eqn:Hr; auto.
  destruct H as [H1 H2]. specialize (Hf a v' H1 H2 eq_refl). destruct (vrun (f a) v') as [[b|m|m|] v'']; auto.
Qed.
Lemma keepN_down : forall A B X N M (p : prog A) v, keepN (X ++ B) N p v -> N <= M -> keepN B M p v.
Proof.
  unfold keepN. intros A B X N M p v H Hn. destruct (vrun p v) as [[]]; auto.
  destruct H as [H1 H2]. split; [eapply above_app; exact H1|lia].
Qed.
Lemma keep_up : forall A B c (p : prog A) v, keep (c :: B) p v -> keep B p v.
Proof.
  intros A B c p v H. unfold keep in *. destruct (vrun p v) as [[]]; auto.
  destruct H as [H1 H2]. split; [eapply above_up; exact H1|exact H2].
Qed.
Lemma keepE_len : forall A B (p : prog A) v n, keepE B p v -> vlen v <= n ->
  match vrun p v with (OFuel, _) => False | (OPanic _, _) => True | (_, v') => above B v' /\ vlen v' <= n end.
Proof. intros A B p v n H Hn. unfold keepE in H. destruct (vrun p v) as [[]]; auto; destruct H; split; auto; lia. Qed.
Lemma keep_len : forall A B (p : prog A) v n, keep B p v -> vlen v <= n ->
  match vrun p v with (OFuel, _) => False | (OPanic _, _) | (OErr _, _) => True | (_, v') => above B v' /\ vlen v' <= n end.
Proof. intros A B p v n H Hn. unfold keep in H. destruct (vrun p v) as [[]]; auto; destruct H; split; auto; lia. Qed.

(** [next] strictly inside the base: pops at most one element. *)
Lemma keepE_Next : forall A B (K : res event -> prog A) v c X, at_ (X ++ c :: B) v ->
  (forall r v', above B v' -> vlen v' <= vlen v -> (forall e, r = Ok e -> vlen v' < vlen v) -> keepE B (K r) v') ->
  keepE B (Next K) v.
Proof.
  intros A B K v c X H HK. unfold keepE. cbn [vrun].
  destruct (inside _ _ H) as [(m & Hr & Hf)|(e & r & Hr)]; [destruct X; discriminate| |].
  - assert (Hn : vnext v = (Some (Er m), v)) by (unfold vnext; rewrite Hr, Hf; reflexivity). rewrite Hn.
    apply (keepE_len _ _ _ _ (vlen v)); [|lia]. apply HK; [eapply above_cons; eauto|lia|discriminate].
  - destruct (next_at _ _ _ _ H Hr) as (st' & v' & Hn & Hr' & Ha & Hst). rewrite Hn.
    assert (Hl : vlen v' < vlen v) by (unfold vlen; rewrite Hr, Hr'; cbn; lia).
    apply (keepE_len _ _ _ _ (vlen v)); [|lia]. apply HK; [|lia|intros; exact Hl].
    destruct e; try (match type of Hst with _ /\ _ => idtac end; destruct Hst as [Hst _]; subst st'; eapply above_cons; eassumption).
    + subst st'. apply (above_cons B (n :: X) c). exact Ha.
    + destruct X as [|c' X]; cbn [app] in Hst; injection Hst as <- <-; [apply above_refl; exact Ha|eapply above_cons; exact Ha].
Qed.
Lemma keep_Next : forall A B (K : res event -> prog A) v c X, at_ (X ++ c :: B) v ->
  (forall r v', above B v' -> vlen v' <= vlen v -> (forall e, r = Ok e -> vlen v' < vlen v) -> keep B (K r) v') ->
  keep B (Next K) v.
Proof.
  intros A B K v c X H HK.
  assert (HE := keepE_Next (vstate * res event) B (fun r => Ret (v, r)) v c X H).
  unfold keep. cbn [vrun].
  destruct (inside _ _ H) as [(m & Hr & Hf)|(e & r & Hr)]; [destruct X; discriminate| |].
  - assert (Hn : vnext v = (Some (Er m), v)) by (unfold vnext; rewrite Hr, Hf; reflexivity). rewrite Hn.
    apply (keep_len _ _ _ _ (vlen v)); [|lia]. apply HK; [eapply above_cons; eauto|lia|discriminate].
  - destruct (next_at _ _ _ _ H Hr) as (st' & v' & Hn & Hr' & Ha & Hst). rewrite Hn.
    assert (Hl : vlen v' < vlen v) by (unfold vlen; rewrite Hr, Hr'; cbn; lia).
    apply (keep_len _ _ _ _ (vlen v)); [|lia]. apply HK; [|lia|intros; exact Hl].
    destruct e; try (match type of Hst with _ /\ _ => idtac end; destruct Hst as [Hst _]; subst st'; eapply above_cons; eassumption).
    + subst st'. apply (above_cons B (n :: X) c). exact Ha.
    + destruct X as [|c' X]; cbn [app] in Hst; injection Hst as <- <-; [apply above_refl; exact Ha|eapply above_cons; exact Ha].
Qed.

(** [next] at a start tag or at text. *)
Lemma Next_start : forall A (K : res event -> prog A) v st n a m r, at_ st v -> v_rest v = EStart n a m :: r ->
  exists v', vrun (Next K) v = vrun (K (Ok (EStart n a m))) v' /\ at_ (n :: st) v' /\ v_rest v' = r.
Proof.
  intros A K v st n a m r H Hr. destruct (next_at _ _ _ _ H Hr) as (st' & v' & Hn & Hr' & Ha & Hst). subst st'.
  exists v'. cbn [vrun]. rewrite Hn. auto.
Qed.

Definition quiet {A} (p : prog A) : Prop := forall v, exists o, vrun p v = (o, v) /\ o <> OFuel.
Lemma quiet_bind : forall A C (p : prog A) (f : A -> prog C), quiet p -> (forall a, quiet (f a)) -> quiet (bind p f).
Proof.
  intros A C p f Hp Hf v. rewrite vrun_bind. destruct (Hp v) as (o & -> & Ho).
  destruct o as [a|m|m|]; [apply Hf| | |]; try (eexists; split; [reflexivity|congruence]).
Qed.
Lemma quiet_ret : forall A (a : A), quiet (Ret a).
Proof. intros A a v. eexists; split; [reflexivity|discriminate]. Qed.
Lemma quiet_of_res : forall A (r : res A), quiet (of_res r).
Proof. intros A [a|m] v; eexists; (split; [reflexivity|discriminate]). Qed.
Lemma quiet_keep : forall A B (p : prog A) v, quiet p -> above B v -> keep B p v.
Proof. intros A B p v H Hb. unfold keep. destruct (H v) as (o & -> & Ho). destruct o; auto. Qed.
Lemma quiet_write : forall u e, quiet (write_unused u e).
Proof.
  intros u e v. unfold write_unused. destruct u; try (eexists; split; [reflexivity|discriminate]).
  destruct (as_writer_event e); [destruct (emit_check _ _)|]; (eexists; split; [reflexivity|discriminate]).
Qed.

Section De.
  Variable x : ext.
  Variable E : env.
  Variable C : nat -> Prop.
  Variable rec : nat -> prog value.
  Variable fuel : nat.

  (** Reading a type from an element with fewer than [bound] events to come. *)
  Definition rec_ok (bound : nat) : Prop := forall id st v n a m r, C id -> at_ st v ->
    v_rest v = EStart n a m :: r -> vlen v <= bound ->
    match vrun (rec id) v with
    | (OFuel, _) => False
    | (OPanic _, _) | (OErr _, _) => True
    | (OOk _, v') => v' = v \/ (above (n :: st) v' /\ vlen v' <= List.length r)
    end.

  Lemma quiet_attr_items : forall s i items ss, quiet (visit_attr_items x E rec (BSimple s) i items ss).
  Proof.
    intros s i items; induction items as [|t items IH]; intros ss; cbn [visit_attr_items]; [apply quiet_ret|].
    apply quiet_bind; [apply quiet_of_res|intros; apply IH].
  Qed.

  Lemma quiet_load_attrs : forall fs i attrs ss,
    (forall f, In f fs -> ya_attribute (f_attrs f) = true -> exists s, base_of (f_ty f) = BSimple s) ->
    quiet (load_attrs x E rec fs i attrs ss).
  Proof.
    intros fs; induction fs as [|f fs IH]; intros i attrs ss H; cbn [load_attrs]; [apply quiet_ret|].
    apply quiet_bind; [|intros; apply IH; intros; apply H; auto; right; assumption].
    destruct (ya_attribute (f_attrs f)) eqn:Ha; [|apply quiet_ret].
    destruct (H f (or_introl eq_refl) Ha) as [s Hs]. clear - Hs. revert ss.
    induction attrs as [|a attrs IH]; intros ss; cbn [load_attr]; [apply quiet_ret|].
    apply quiet_bind; [|intros; apply IH]. destruct (String.eqb _ _); [|apply quiet_ret].
    assert (Hgen : quiet (bind (visit_attr x E rec (BSimple s) (at_value a)) (fun v => Ret (upd i (put_slot v) ss)))).
    { apply quiet_bind; [apply quiet_of_res|intros; apply quiet_ret]. }
    destruct (f_ty f) as [b|b|b|b]; cbn [base_of] in Hs; subst b; try exact Hgen.
    - destruct s; exact Hgen.
    - apply quiet_attr_items.
  Qed.

  (** [skip_element] right after a start tag closes that element. *)
  Lemma skip_keep : forall fl B c X u v, at_ (X ++ c :: B) v -> vlen v < fl ->
    keep B (skip_loop fl (S (List.length B)) write_unused u) v.
  Proof.
    induction fl as [|fl IH]; intros B c X u v H Hl; [lia|]. cbn [skip_loop]. unfold keep. cbn [vrun].
    destruct (Nat.leb _ (v_depth v)); [|split; [eapply above_cons; exact H|lia]].
    unfold next_. cbn [bind]. apply (keep_Next _ B _ v c X H). intros [e|m] v' Hv' Hle Hlt; [|exact I].
    specialize (Hlt e eq_refl). cbn [of_res bind]. apply keep_bind; [apply quiet_keep; [apply quiet_write|exact Hv']|].
    intros u' v'' _ _ Hw. assert (v'' = v').
    { destruct (quiet_write u e v') as (o & Ho & _). rewrite Ho in Hw. inversion Hw; reflexivity. }
    subst v''. destruct Hv' as [Y Hv']. destruct Y as [|y Y].
    - destruct fl as [|fl]; [lia|]. cbn [skip_loop]. unfold keep. cbn [vrun]. destruct Hv' as [Hd Hv'']. cbn [app] in *.
      destruct (Nat.leb _ _) eqn:Hle'; [apply Nat.leb_le in Hle'; rewrite Hd in Hle'; lia|].
      split; [exists []; split; assumption|lia].
    - destruct (exists_last (l := y :: Y)) as (Z & z & HZ); [discriminate|]. rewrite HZ in Hv'.
      rewrite <- app_assoc in Hv'. cbn [app] in Hv'. eapply IH; [exact Hv'|lia].
  Qed.

  Lemma arm_simple_keep : forall ra i f s n a m r ss st v, at_ st v -> v_rest v = EStart n a m :: r ->
    keepN st (List.length r) (arm_simple x ra i f s n ss) v.
  Proof.
    intros ra i f s n a m r ss st v H Hr. unfold arm_simple. destruct (namespace_check _ _ _ _); [exact I|].
    apply (keepN_bind _ _ _ (List.length r)).
    2: { intros [b|e] v' Hv' Hl' _; split; auto. }
    enough (HE : match vrun (attempt (read_inner_value (Peek (fun r => match r with
             | Ok (EChars t) => bind next_ (fun _ => of_res (visit_simple x s t))
             | _ => Throw ("unable to parse content for " +++ field_local f)
             end)))) v with (OFuel, _) => False | (OPanic _, _) => True | (_, v') => above st v' /\ vlen v' <= List.length r end).
    { unfold keepN. destruct (vrun _ v) as [[]]; auto. }
    rewrite vrun_attempt. unfold read_inner_value.
    enough (HE : match vrun (Next (fun r0 => match r0 with
       | Ok (EStart nm _ _) => bind (Peek (fun r => match r with
             | Ok (EChars t) => bind next_ (fun _ => of_res (visit_simple x s t))
             | _ => Throw ("unable to parse content for " +++ field_local f)
             end)) (fun v0 => bind (expect_end_element nm) (fun _ => Ret v0))
       | _ => Throw "Internal error: Bad Event" end)) v with (OFuel, _) => False | (OPanic _, _) => True | (_, v') => above st v' /\ vlen v' <= List.length r end).
    { destruct (vrun _ v) as [[]]; auto. }
    destruct (Next_start _ (fun r0 => match r0 with
       | Ok (EStart nm _ _) => bind (Peek (fun r => match r with
             | Ok (EChars t) => bind next_ (fun _ => of_res (visit_simple x s t))
             | _ => Throw ("unable to parse content for " +++ field_local f)
             end)) (fun v0 => bind (expect_end_element nm) (fun _ => Ret v0))
       | _ => Throw "Internal error: Bad Event" end) v st n a m r H Hr) as (v' & -> & Hv' & Hr').
    apply keepE_len; [|unfold vlen; rewrite Hr'; lia].
    assert (Hend : forall (b : value) v'', above (n :: st) v'' -> vlen v'' <= vlen v' ->
      keepE st (bind (expect_end_element n) (fun _ => Ret b)) v'').
    { intros b v'' [X Hx] _. unfold expect_end_element, next_. cbn [bind]. eapply keepE_Next; [exact Hx|].
      intros [e|e] w Hw _ _; cbn [of_res bind]; [|apply keepE_throw; exact Hw].
      destruct e; try (apply keepE_throw; exact Hw). destruct (name_eqb _ _); [apply keepE_ret|apply keepE_throw]; exact Hw. }
    cbn [bind]. unfold keepE. cbn [vrun]. destruct (vpeek v') as [e|e] eqn:Hp; [|split; [apply (above_up _ n), above_refl; exact Hv'|lia]].
    destruct e; try (split; [apply (above_up _ n), above_refl; exact Hv'|lia]).
    assert (Hr2 : exists r2, v_rest v' = EChars s0 :: r2).
    { unfold vpeek in Hp. destruct (v_rest v') as [|e2 r2]; [destruct (v_fin v'); discriminate|]. inversion Hp; eauto. }
    destruct Hr2 as [r2 Hr2]. destruct (next_at _ _ _ _ Hv' Hr2) as (st2 & v2 & Hn & Hr3 & Ha & -> & _).
    unfold next_. cbn [bind vrun]. rewrite Hn. cbn [of_res bind].
    apply (keepE_len _ st _ v2 (vlen v')); [|unfold vlen; rewrite Hr2, Hr3; cbn; lia].
    destruct (visit_simple x s s0) as [b|e]; cbn [of_res bind]; [|apply keepE_throw, (above_up _ n), above_refl; exact Ha].
    apply Hend; [apply above_refl; exact Ha|unfold vlen; rewrite Hr2, Hr3; cbn; lia].
  Qed.

  Lemma next_after : forall A st n a m r v v' (K : event -> prog A), at_ st v -> v_rest v = EStart n a m :: r ->
    (v' = v \/ (above (n :: st) v' /\ vlen v' <= List.length r)) ->
    (forall e w, above st w -> vlen w <= List.length r -> keep st (K e) w) ->
    keepN st (List.length r) (bind next_ K) v'.
  Proof.
    intros A st n a m r v v' K H Hr Hv' HK. destruct Hv' as [->|[[X Hx] Hl]].
    - unfold next_, keepN. cbn [bind].
      destruct (Next_start _ (fun r => bind (of_res r) K) v st n a m r H Hr) as (w & -> & Hw & Hrw).
      cbn [of_res bind]. assert (vlen w <= List.length r) by (unfold vlen; rewrite Hrw; lia).
      apply keep_len; [|lia]. apply HK; [apply (above_up _ n), above_refl; exact Hw|assumption].
    - apply (keep_len _ st (bind next_ K) v'); [|lia]. unfold next_. cbn [bind]. eapply keep_Next; [exact Hx|].
      intros [e|e] w Hw Hle Hlt; [|exact I]. cbn [of_res bind]. apply HK; [exact Hw|lia].
  Qed.

  Lemma arm_struct_keep : forall i id dp ss st n a m r v, rec_ok (if Z.eqb dp 0 then vlen v - 1 else vlen v) ->
    C id -> at_ st v -> v_rest v = EStart n a m :: r ->
    keepN (if Z.eqb dp 0 then n :: st else st) (List.length r) (arm_struct rec i id dp ss) v.
  Proof.
    intros i id dp ss st n a m r v Hrec Hid H Hr. unfold arm_struct.
    assert (Hgo : forall st v n a m r, rec_ok (vlen v) -> at_ st v -> v_rest v = EStart n a m :: r ->
      keepN st (List.length r) (bind (rec id) (fun v => bind next_ (fun _ => Ret (upd i (put_slot v) ss)))) v).
    { intros st' v' n' a' m' r' Hrec' H' Hr'. specialize (Hrec' id st' v' n' a' m' r' Hid H' Hr' (le_n _)).
      unfold keepN. rewrite vrun_bind. destruct (vrun (rec id) v') as [[b|e|e|] w]; auto.
      apply (next_after _ st' n' a' m' r' v' w); auto. intros e w' Hw' Hl'. split; [exact Hw'|lia]. }
    destruct (Z.eqb dp 0).
    - destruct (Next_start _ (fun _ => Peek (fun r => match r with
        | Ok (EStart _ _ _) => bind (rec id) (fun v => bind next_ (fun _ => Ret (upd i (put_slot v) ss)))
        | _ => Ret ss end)) v st n a m r H Hr) as (v' & Hv' & Ha & Hr').
      unfold keepN. rewrite Hv'.
      assert (Hl : vlen v = S (vlen v')) by (unfold vlen; rewrite Hr, Hr'; reflexivity).
      assert (Hl' : vlen v' = List.length r) by (unfold vlen; rewrite Hr'; reflexivity). cbn [vrun].
      destruct (vpeek v') as [e|e] eqn:Hp; [|split; [apply above_refl; exact Ha|lia]].
      destruct e; try (split; [apply above_refl; exact Ha|lia]).
      assert (Hr2 : exists r2, v_rest v' = EStart n0 attrs ns :: r2).
      { unfold vpeek in Hp. destruct (v_rest v') as [|e2 r2]; [destruct (v_fin v'); discriminate|]. inversion Hp; eauto. }
      destruct Hr2 as [r2 Hr2].
      assert (Hk := Hgo (n :: st) v' n0 attrs ns r2).
      replace (vlen v - 1) with (vlen v') in Hrec by lia.
      specialize (Hk Hrec Ha Hr2). refine (keepN_down _ (n :: st) [] _ _ _ _ Hk _). rewrite <- Hl'. unfold vlen. rewrite Hr2. cbn; lia.
    - unfold keepN. cbn [vrun]. assert (Hp : vpeek v = Ok (EStart n a m)) by (unfold vpeek; rewrite Hr; reflexivity).
      rewrite Hp. eapply Hgo; eauto.
  Qed.

  Lemma rec_ok_le : forall b b', rec_ok b -> b' <= b -> rec_ok b'.
  Proof. intros b b' H Hb id st v n a m r H1 H2 H3 H4. eapply H; eauto. lia. Qed.

  Section Struct.
    Variable td : typedef.
    Variable fs : list field.
    Hypothesis Hfs : calm_root C fs.

    Lemma found_calm : forall n i f, field_for (t_attrs td) fs n = Some (i, f) ->
      forall id, base_of (f_ty f) = BUser id -> C id.
    Proof.
      intros n i f H id Hb. apply field_for_spec in H. destruct H as (H1 & H2 & H3 & _).
      apply nth_error_In in H1. destruct (Hfs f H1) as (_ & _ & Hc). apply Hc; [split; assumption|exact Hb].
    Qed.

    Lemma attrs_calm : forall i attrs ss, quiet (load_attrs x E rec fs i attrs ss).
    Proof. intros. apply quiet_load_attrs. intros f Hf. apply Hfs; exact Hf. Qed.

    Lemma quiet_same : forall A (p : prog A) v a v', quiet p -> vrun p v = (OOk a, v') -> v' = v.
    Proof. intros A p v a v' H Hr. destruct (H v) as (o & Ho & _). congruence. Qed.

    Lemma keepN_quiet : forall A B N (p : prog A) v, quiet p -> above B v -> vlen v <= N -> keepN B N p v.
    Proof. intros A B N p v H Hb Hn. unfold keepN. destruct (H v) as (o & -> & Ho). destruct o; auto. Qed.

    Lemma keepN_next_start : forall A B N (K : event -> prog A) st v n a m r, at_ st v -> v_rest v = EStart n a m :: r ->
      (forall v', at_ (n :: st) v' -> v_rest v' = r -> keepN B N (K (EStart n a m)) v') -> keepN B N (bind next_ K) v.
    Proof.
      intros A B N K st v n a m r H Hr HK. unfold next_, keepN. cbn [bind].
      destruct (Next_start _ (fun r => bind (of_res r) K) v st n a m r H Hr) as (w & -> & Hw & Hrw).
      apply HK; assumption.
    Qed.

    Lemma loop_keep : forall fl n0 B0 X st v, at_ (X ++ n0 :: B0) v -> vlen v < fl -> vlen v < fuel ->
      rec_ok (vlen v) ->
      keep (n0 :: B0) (struct_loop x E rec fuel fl td fs (n_local n0) (List.length B0) st) v.
    Proof.
      induction fl as [|fl IH]; intros n0 B0 X st v H Hl Hfu Hrec; [lia|]. cbn [struct_loop].
      unfold keep. rewrite vrun_peek_.
      destruct (inside _ _ H) as [(m & Hr & Hf)|(e & r & Hr)]; [destruct X; discriminate| |].
      { assert (Hp : vpeek v = Er m) by (unfold vpeek; rewrite Hr, Hf; reflexivity). rewrite Hp. exact I. }
      assert (Hp : vpeek v = Ok e) by (unfold vpeek; rewrite Hr; reflexivity). rewrite Hp.
      assert (Hvl : vlen v = S (List.length r)) by (unfold vlen; rewrite Hr; reflexivity).
      assert (Hgo : forall ss u d v', above (n0 :: B0) v' -> vlen v' <= List.length r ->
        keepN (n0 :: B0) (vlen v) (struct_loop x E rec fuel fl td fs (n_local n0) (List.length B0) (LState ss u d)) v').
      { intros ss u d v' [Y Hy] Hv'. apply keep_len; [|lia]. eapply IH; [exact Hy|lia|lia|eapply rec_ok_le; [exact Hrec|lia]]. }
      assert (Hst := proj2 H). rewrite Hr in Hst.
      destruct e as [ | |pi|n attrs m|n|t|t|t|t]; cbn [ends_in] in Hst; try contradiction; try exact I.
      - (* start *)
        rewrite find_field_for.
        change (keepN (n0 :: B0) (vlen v) (bind (if (Z.eqb (l_depth st) 0 && String.eqb (n_local n) (de_root td) && String.eqb (opt_default "" (n_ns n)) (de_root_ns td))%bool
          then bind next_ (fun ev => bind (write_unused (l_unused st) ev) (fun u => Ret (LState (l_slots st) u (l_depth st))))
          else match field_for (t_attrs td) fs n with
               | Some (i, f) => bind match fbase (f_ty f) with
                    | BSimple s => arm_simple x (t_attrs td) i f s n (l_slots st)
                    | BUser id => arm_struct rec i id (l_depth st) (l_slots st) end
                    (fun ss => Ret (LState ss (l_unused st) (l_depth st)))
               | None => bind next_ (fun ev => bind (write_unused (l_unused st) ev) (fun u =>
                    bind (if Z.ltb 0 (l_depth st) then skip_element fuel write_unused u else Ret u)
                     (fun u' => Ret (LState (l_slots st) u' (l_depth st))))) end)
          (fun st1 => bind (if Z.eqb (l_depth st1) 0 then load_attrs x E rec fs 0 attrs (l_slots st1) else Ret (l_slots st1))
            (fun ss => struct_loop x E rec fuel fl td fs (n_local n0) (List.length B0) (LState ss (l_unused st1) (l_depth st1 + 1))))) v).
        apply (keepN_bind _ _ _ (List.length r)).
        + destruct (_ && _)%bool.
          * eapply keepN_next_start; [exact H|exact Hr|]. intros v' Hv' Hr'. apply keepN_quiet.
            -- apply quiet_bind; [apply quiet_write|intros; apply quiet_ret].
            -- exists (n :: X). exact Hv'.
            -- unfold vlen; rewrite Hr'; lia.
          * destruct (field_for (t_attrs td) fs n) as [[i f]|] eqn:Hff.
            -- apply (keepN_bind _ _ _ (List.length r)); [|intros ss v' Hv' Hl' _; split; [exact Hv'|exact Hl']].
               rewrite fbase_base. destruct (base_of (f_ty f)) as [s|id] eqn:Hb.
               ++ apply (keepN_down _ _ X (List.length r)); [|lia]. eapply arm_simple_keep; eauto.
               ++ assert (Hid : C id) by (eapply found_calm; eauto).
                  assert (Hrec' : rec_ok (if Z.eqb (l_depth st) 0 then vlen v - 1 else vlen v))
                    by (eapply rec_ok_le; [exact Hrec|destruct (Z.eqb _ _); lia]).
                  assert (Hk := arm_struct_keep i id (l_depth st) (l_slots st) _ n attrs m r v Hrec' Hid H Hr).
                  destruct (Z.eqb (l_depth st) 0).
                  ** apply (keepN_down _ _ (n :: X) (List.length r)); [exact Hk|lia].
                  ** apply (keepN_down _ _ X (List.length r)); [exact Hk|lia].
            -- eapply keepN_next_start; [exact H|exact Hr|]. intros v' Hv' Hr'.
               assert (Hlv' : vlen v' = List.length r) by (unfold vlen; rewrite Hr'; reflexivity).
               assert (Hab : above (n0 :: B0) v') by (exists (n :: X); exact Hv').
               apply (keepN_bind _ _ _ (List.length r)); [apply keepN_quiet; [apply quiet_write|exact Hab|lia]|].
               intros u v'' _ _ Hw. apply quiet_same in Hw; [|apply quiet_write]. subst v''.
               apply (keepN_bind _ _ _ (List.length r)); [|intros; split; assumption].
               destruct (Z.ltb 0 (l_depth st)); [|apply keepN_quiet; [apply quiet_ret|exact Hab|lia]].
               unfold skip_element, keepN. cbn [vrun]. rewrite (proj1 Hv'). cbn [List.length].
               apply (keepN_down _ _ X (vlen v')); [|lia]. apply (skip_keep fuel _ n []); [exact Hv'|lia].
        + intros st1 v' Hv' Hlv' _.
          apply (keepN_bind _ _ _ (List.length r)).
          * destruct (Z.eqb _ 0); (apply keepN_quiet; [|exact Hv'|lia]); [apply attrs_calm|apply quiet_ret].
          * intros ss v'' Hv'' Hlv'' _. apply Hgo; assumption.
      - (* end *)
        cbn [vrun]. rewrite (proj1 H).
        destruct (next_at _ _ _ _ H Hr) as (st' & v' & Hn & Hr' & Ha & Hs).
        assert (Hlv' : vlen v' = List.length r) by (unfold vlen; rewrite Hr'; reflexivity).
        destruct X as [|c X].
        + cbn [app] in Hs. injection Hs as <- <-. cbn [app List.length]. rewrite String.eqb_refl, Nat.eqb_refl. cbn [andb].
          apply (keepN_bind _ _ _ (vlen v)); [|intros; split; assumption].
          apply keepN_quiet; [apply quiet_write|apply above_refl; exact H|lia].
        + replace (Nat.eqb (List.length ((c :: X) ++ n0 :: B0)) (S (List.length B0))) with false.
          2: { symmetry; apply Nat.eqb_neq. rewrite app_length. cbn [List.length]. lia. }
          rewrite andb_false_r. unfold next_. cbn [bind vrun]. rewrite Hn. cbn [of_res bind].
          cbn [app] in Hs. injection Hs as <- <-. assert (Hab : above (n0 :: B0) v') by (exists X; exact Ha).
          apply (keepN_bind _ _ _ (List.length r)); [apply keepN_quiet; [apply quiet_write|exact Hab|lia]|].
          intros u v'' Hv'' Hlv'' _. apply Hgo; assumption.
      - (* text *)
        destruct (next_at _ _ _ _ H Hr) as (st' & v' & Hn & Hr' & Ha & Hs & _). subst st'.
        assert (Hlv' : vlen v' = List.length r) by (unfold vlen; rewrite Hr'; reflexivity).
        unfold next_. cbn [bind vrun]. rewrite Hn. cbn [of_res bind].
        assert (Hab : above (n0 :: B0) v') by (exists X; exact Ha).
        apply (keepN_bind _ _ _ (List.length r)); [apply keepN_quiet; [apply quiet_write|exact Hab|lia]|].
        intros u v'' Hv'' Hlv'' _. apply Hgo; assumption.
    Qed.

    (** The whole loop, called at the start tag. *)
    Lemma start_keep : forall n a m r st v ss u, at_ st v -> v_rest v = EStart n a m :: r ->
      (forall i f s, field_for (t_attrs td) fs n = Some (i, f) -> base_of (f_ty f) = BSimple s -> elabel n = root_label td) ->
      vlen v < fuel -> rec_ok (vlen v - 1) ->
      keepN (n :: st) (List.length r) (struct_loop x E rec fuel fuel td fs (n_local n) (List.length st) (LState ss u 0)) v.
    Proof.
      intros n attrs m r st v ss u H Hr Hroot Hfu Hrec.
      destruct fuel as [|fl] eqn:Hfuel; [lia|]. cbn [struct_loop].
      unfold keepN. rewrite vrun_peek_.
      assert (Hp : vpeek v = Ok (EStart n attrs m)) by (unfold vpeek; rewrite Hr; reflexivity). rewrite Hp.
      assert (Hvl : vlen v = S (List.length r)) by (unfold vlen; rewrite Hr; reflexivity).
      cbn [l_depth l_slots l_unused]. rewrite Z.eqb_refl. rewrite find_field_for.
      assert (Hgo : forall ss u d v', above (n :: st) v' -> vlen v' <= List.length r ->
        keepN (n :: st) (List.length r) (struct_loop x E rec (S fl) fl td fs (n_local n) (List.length st) (LState ss u d)) v').
      { intros ss' u' d v' [Y Hy] Hv'. apply keep_len; [|lia]. rewrite <- Hfuel.
        eapply loop_keep; [exact Hy|lia|lia|eapply rec_ok_le; [exact Hrec|lia]]. }
      cbn [andb].
      match goal with |- match vrun (bind ?p ?f) v with _ => _ end => change (keepN (n :: st) (List.length r) (bind p f) v) end.
      apply (keepN_bind _ _ _ (List.length r)).
      - destruct (_ && _)%bool eqn:Hm.
        + eapply keepN_next_start; [exact H|exact Hr|]. intros v' Hv' Hr'. apply keepN_quiet.
          * apply quiet_bind; [apply quiet_write|intros; apply quiet_ret].
          * apply above_refl; exact Hv'.
          * unfold vlen; rewrite Hr'; lia.
        + destruct (field_for (t_attrs td) fs n) as [[i f]|] eqn:Hff.
          * apply (keepN_bind _ _ _ (List.length r)); [|intros ss' v' Hv' Hl' _; split; [exact Hv'|exact Hl']].
            rewrite fbase_base. destruct (base_of (f_ty f)) as [s|id] eqn:Hb.
            -- exfalso. assert (Hx := Hroot _ _ _ eq_refl Hb). unfold elabel, root_label in Hx. injection Hx as Hx1 Hx2.
               apply andb_false_iff in Hm. destruct Hm as [Hm|Hm]; apply String.eqb_neq in Hm; apply Hm; assumption.
            -- assert (Hid : C id) by (eapply found_calm; eauto).
               exact (arm_struct_keep i id 0%Z ss st n attrs m r v Hrec Hid H Hr).
          * eapply keepN_next_start; [exact H|exact Hr|]. intros v' Hv' Hr'.
            apply keepN_quiet; [|apply above_refl; exact Hv'|unfold vlen; rewrite Hr'; lia].
            apply quiet_bind; [apply quiet_write|]. intros u'. apply quiet_bind; intros; apply quiet_ret.
      - intros st1 v' Hv' Hlv' _.
        apply (keepN_bind _ _ _ (List.length r)).
        + destruct (Z.eqb _ 0); (apply keepN_quiet; [|exact Hv'|lia]); [apply attrs_calm|apply quiet_ret].
        + intros ss' v'' Hv'' Hlv'' _. apply Hgo; assumption.
    Qed.

    Lemma visit_unused_none : forall ss u, visit_unused rec fs u ss = Ret ss.
    Proof.
      intros ss u. unfold visit_unused. destruct u as [| |s es]; try reflexivity.
      generalize (emit_text default_econf es) as t, 0 as i. clear es s. intros t. revert ss.
      assert (H : forall fs', incl fs' fs -> forall ss i, visit_flatten rec fs' i t ss = Ret ss).
      { induction fs' as [|f fs' IH]; intros Hin ss i; [reflexivity|]. cbn [visit_flatten].
        assert (Hf : flat_field f = false) by (apply (Hfs f), Hin; left; reflexivity).
        unfold flat_field in Hf. rewrite Hf. cbn [bind]. apply IH. intros g Hg. apply Hin; right; exact Hg. }
      apply H, incl_refl.
    Qed.

    Lemma de_struct_keep : forall n a m r st v, at_ st v -> v_rest v = EStart n a m :: r ->
      (forall i f s, field_for (t_attrs td) fs n = Some (i, f) -> base_of (f_ty f) = BSimple s -> elabel n = root_label td) ->
      vlen v < fuel -> rec_ok (vlen v - 1) ->
      keepN (n :: st) (List.length r) (de_struct x E rec fuel td fs) v.
    Proof.
      intros n a m r st v H Hr Hroot Hfu Hrec. unfold de_struct, keepN. rewrite vrun_peek_.
      assert (Hp : vpeek v = Ok (EStart n a m)) by (unfold vpeek; rewrite Hr; reflexivity). rewrite Hp. cbn [vrun].
      destruct (if Nat.eqb (v_depth v) 0 then _ else _); [exact I|]. rewrite (proj1 H).
      match goal with |- match vrun (bind ?p ?f) v with _ => _ end => change (keepN (n :: st) (List.length r) (bind p f) v) end.
      apply (keepN_bind _ _ _ (List.length r)); [eapply start_keep; eauto|].
      intros st' v' Hv' Hl' _. rewrite visit_unused_none. cbn [bind].
      apply keepN_quiet; [|exact Hv'|exact Hl']. apply quiet_bind; [apply quiet_of_res|intros; apply quiet_ret].
    Qed.
  End Struct.

  Section Enum.
    Variable td : typedef.
    Variable vs : list variant.
    Hypothesis Hvs : forall l a fl t, ~ In (Variant l a (VbNew fl t)) vs.

    Lemma found_unit : forall nm i b cur, find_variant vs 0 nm = Some (i, b) ->
      enum_arm x rec i b cur = Ret (Some (VVar i []), true).
    Proof.
      intros nm i b cur H. assert (Hn : forall fs', b <> VbNamed fs').
      { revert H. generalize 0 as j. clear. induction vs as [|v vs' IH]; intros j H; cbn [find_variant] in H; [discriminate|].
        destruct (v_body v) eqn:Hb; try (destruct (String.eqb _ _)); eauto; inversion H; subst; discriminate. }
      apply find_variant_in in H. destruct H as (l & a & Hin).
      destruct b as [|fl t|fs']; [reflexivity|exfalso; eapply Hvs; eauto|exfalso; eapply Hn; eauto].
    Qed.

    (** One start tag: either the loop is left at once, or the tag is consumed. *)
    Lemma enum_start : forall fl B st v n a m r ln sd cur, at_ st v -> v_rest v = EStart n a m :: r ->
      (forall cur' v', above (n :: st) v' -> vlen v' <= List.length r ->
         keepN B (List.length r) (enum_loop x rec fl td vs ln sd cur') v') ->
      (forall v', above (n :: st) v' -> above B v') ->
      match vrun (enum_loop x rec (S fl) td vs ln sd cur) v with
      | (OFuel, _) => False
      | (OPanic _, _) | (OErr _, _) => True
      | (OOk _, v') => v' = v \/ (above B v' /\ vlen v' <= List.length r)
      end.
    Proof.
      intros fl B st v n a m r ln sd cur H Hr Hgo HB. cbn [enum_loop]. rewrite vrun_peek_.
      assert (Hp : vpeek v = Ok (EStart n a m)) by (unfold vpeek; rewrite Hr; reflexivity). rewrite Hp.
      destruct (enum_element_name _ _ _) as [nm|e]; [|exact I]. cbn [of_res bind].
      destruct (find_variant vs 0 nm) as [[i b]|] eqn:Hf.
      - rewrite (found_unit _ _ _ cur Hf). cbn [bind vrun]. left; reflexivity.
      - cbn [bind].
        match goal with |- match vrun (Next ?K) v with _ => _ end =>
          destruct (Next_start _ K v st n a m r H Hr) as (v' & -> & Ha & Hr') end.
        assert (Hl : vlen v' = List.length r) by (unfold vlen; rewrite Hr'; reflexivity).
        assert (Hab : above (n :: st) v') by (apply above_refl; exact Ha).
        enough (HK : keepN B (List.length r) (bind peek_ (fun e2 => match e2 with
              | EChars content =>
                  bind match find_variant vs 0 content with Some (i, b) => enum_arm x rec i b cur | None => Ret (cur, false) end
                    (fun r2 => let '(cur2, brk2) := r2 in if brk2 then Ret cur2 else enum_loop x rec fl td vs ln sd cur2)
              | _ => enum_loop x rec fl td vs ln sd cur end)) v').
        { unfold keepN in HK. cbn [bind]. destruct (vrun _ v') as [[]]; auto. }
        unfold keepN. rewrite vrun_peek_. destruct (vpeek v') as [e2|e2]; [|exact I].
        assert (Hg := Hgo cur v' Hab ltac:(lia)).
        destruct e2; try exact Hg.
        destruct (find_variant vs 0 s) as [[i b]|] eqn:Hf2.
        + rewrite (found_unit _ _ _ cur Hf2). cbn [bind vrun]. split; [apply HB; exact Hab|lia].
        + exact Hg.
    Qed.

    Lemma enum_keep : forall fl n0 B0 X cur v, at_ (X ++ n0 :: B0) v -> vlen v < fl ->
      keep (n0 :: B0) (enum_loop x rec fl td vs (n_local n0) (List.length B0) cur) v.
    Proof.
      induction fl as [|fl IH]; intros n0 B0 X cur v H Hl; [lia|].
      destruct (inside _ _ H) as [(m & Hr & Hf)|(e & r & Hr)]; [destruct X; discriminate| |].
      { cbn [enum_loop]. unfold keep. rewrite vrun_peek_.
        assert (Hp : vpeek v = Er m) by (unfold vpeek; rewrite Hr, Hf; reflexivity). rewrite Hp. exact I. }
      assert (Hp : vpeek v = Ok e) by (unfold vpeek; rewrite Hr; reflexivity).
      assert (Hvl : vlen v = S (List.length r)) by (unfold vlen; rewrite Hr; reflexivity).
      assert (Hgo : forall cur v', above (n0 :: B0) v' -> vlen v' <= List.length r ->
        keepN (n0 :: B0) (List.length r) (enum_loop x rec fl td vs (n_local n0) (List.length B0) cur) v').
      { intros cur' v' [Y Hy] Hv'. apply keep_len; [|lia]. eapply IH; [exact Hy|lia]. }
      assert (Hst := proj2 H). rewrite Hr in Hst.
      destruct e as [ | |pi|n attrs m|n|t|t|t|t]; cbn [ends_in] in Hst; try contradiction;
        try (cbn [enum_loop]; unfold keep; rewrite vrun_peek_, Hp; exact I).
      - assert (HS := enum_start fl (n0 :: B0) _ v n attrs m r (n_local n0) (List.length B0) cur H Hr).
        unfold keep. destruct (vrun _ v) as [[b|b|b|] v']; auto; try apply HS;
          try (intros; apply Hgo; [apply (above_app _ (n :: X)); assumption|assumption]);
          try (intros w Hw; apply (above_app _ (n :: X)); exact Hw).
        destruct HS as [HS|[HS1 HS2]];
          [intros; apply Hgo; [apply (above_app _ (n :: X)); assumption|assumption]
          |intros w Hw; apply (above_app _ (n :: X)); exact Hw| |].
        + subst v'. split; [exists X; exact H|lia].
        + split; [exact HS1|lia].
      - cbn [enum_loop]. unfold keep. rewrite vrun_peek_, Hp. cbn [vrun]. rewrite (proj1 H).
        destruct (next_at _ _ _ _ H Hr) as (st' & v' & Hn & Hr' & Ha & Hs).
        assert (Hlv' : vlen v' = List.length r) by (unfold vlen; rewrite Hr'; reflexivity).
        destruct X as [|c X].
        + cbn [app] in Hs. injection Hs as <- <-. cbn [app List.length]. rewrite String.eqb_refl, Nat.eqb_refl. cbn [andb].
          split; [exists []; exact H|lia].
        + replace (Nat.eqb (List.length ((c :: X) ++ n0 :: B0)) (S (List.length B0))) with false.
          2: { symmetry; apply Nat.eqb_neq. rewrite app_length. cbn [List.length]. lia. }
          rewrite andb_false_r. cbn [vrun]. rewrite Hn.
          cbn [app] in Hs. injection Hs as <- <-.
          apply (keepN_down _ _ [] (List.length r)); [|lia]. apply Hgo; [exists X; exact Ha|lia].
      - cbn [enum_loop]. unfold keep. rewrite vrun_peek_, Hp. cbn [vrun].
        destruct (next_at _ _ _ _ H Hr) as (st' & v' & Hn & Hr' & Ha & Hs & _). subst st'. rewrite Hn.
        apply (keepN_down _ _ [] (List.length r)); [|lia]. apply Hgo; [exists X; exact Ha|unfold vlen; rewrite Hr'; lia].
    Qed.

    Lemma de_enum_keep : forall dflt n a m r st v, at_ st v -> v_rest v = EStart n a m :: r -> vlen v < fuel ->
      match vrun (de_enum x rec fuel td vs dflt) v with
      | (OFuel, _) => False
      | (OPanic _, _) | (OErr _, _) => True
      | (OOk _, v') => v' = v \/ (above (n :: st) v' /\ vlen v' <= List.length r)
      end.
    Proof.
      intros dflt n a m r st v H Hr Hfu. unfold de_enum. rewrite vrun_peek_.
      assert (Hp : vpeek v = Ok (EStart n a m)) by (unfold vpeek; rewrite Hr; reflexivity). rewrite Hp. cbn [vrun].
      destruct (namespace_check _ _ _ _); [exact I|]. rewrite (proj1 H), vrun_bind.
      assert (Hvl : vlen v = S (List.length r)) by (unfold vlen; rewrite Hr; reflexivity).
      destruct fuel as [|fl] eqn:Hfuel; [lia|].
      assert (HS := enum_start fl (n :: st) _ v n a m r (n_local n) (List.length st) None H Hr).
      destruct (vrun _ v) as [[b|b|b|] v']; auto; apply HS; auto;
        intros cur' w [Y Hy] Hw; (apply keep_len; [|lia]; eapply enum_keep; [exact Hy|lia]).
    Qed.
  End Enum.
End De.

Lemma prim_keep : forall x td k n a m r st v, at_ st v -> v_rest v = EStart n a m :: r ->
  keepN (n :: st) (List.length r) (de_prim x td k) v.
Proof.
  intros x td k n a m r st v H Hr. unfold de_prim, keepN. cbn [vrun].
  assert (Hp : vpeek v = Ok (EStart n a m)) by (unfold vpeek; rewrite Hr; reflexivity). rewrite Hp.
  match goal with |- match vrun (bind ?p ?f) v with _ => _ end => change (keepN (n :: st) (List.length r) (bind p f) v) end.
  eapply keepN_next_start; [exact H|exact Hr|]. intros v' Ha Hr'. apply keepN_quiet;
    [|apply above_refl; exact Ha|unfold vlen; rewrite Hr'; lia].
  intros w. cbn [vrun]. apply quiet_of_res.
Qed.

Theorem de_keep : forall x E C, calm E C -> forall fuel bound, bound + 1 < fuel -> rec_ok C (de x E fuel) bound.
Proof.
  intros x E C HC. induction fuel as [|fuel IH]; intros bound Hb; [lia|].
  intros id st v n a m r Hid H Hr Hl. cbn [de]. unfold de_body.
  destruct (nth_error E id) as [td|] eqn:Htd; [|exact I].
  assert (Hc := HC id Hid td Htd).
  assert (Hvl : vlen v = S (List.length r)) by (unfold vlen; rewrite Hr; reflexivity).
  destruct (t_body td) as [fs|vs d|k].
  - assert (Hk : keepN (n :: st) (List.length r) (de_struct x E (de x E fuel) fuel td fs) v).
    { apply (de_struct_keep x E C) with (a := a) (m := m); auto; [| |lia|apply IH; lia].
      - intros f Hf. destruct (Hc f Hf) as (H1 & H2 & H3). repeat split; auto. intros He i Hi.
        destruct (H3 He) as (j & Hj & Hcj). congruence.
      - intros i f s Hff Hs. exfalso. apply field_for_spec in Hff. destruct Hff as (F1 & F2 & F3 & _).
        apply nth_error_In in F1. destruct (Hc f F1) as (_ & _ & H3). destruct H3 as (j & Hj & _); [split; assumption|congruence]. }
    unfold keepN in Hk. destruct (vrun _ v) as [[]]; auto.
  - eapply de_enum_keep; eauto. lia.
  - assert (Hk := prim_keep x td k n a m r st v H Hr). unfold keepN in Hk. destruct (vrun _ v) as [[]]; auto.
Qed.

Lemma vis_length : forall l, List.length (vis l) <= List.length l.
Proof. induction l as [|e l IH]; [apply le_n|]. unfold vis in *. cbn [filter]. destruct (visible e); cbn [List.length]; lia. Qed.

(** The view of a parsed source starts with the root element, or is empty and
    ends with an error. *)
Lemma parsed_view : forall s, parsed_source s -> at_ [] (view (d_init s)) /\ ((exists n a m r, v_rest (view (d_init s)) = EStart n a m :: r) \/
   (v_rest (view (d_init s)) = [] /\ exists m, v_fin (view (d_init s)) = FErr m)).
Proof.
  intros [evs f] (st & H & Hf). cbn [s_evs s_fin] in *. unfold view, d_init. cbn [d_depth d_peeked d_src s_evs s_fin app].
  assert (He : ends_in [] (vis evs) f) by (eapply stack_ends; [exact H|intros Hx; apply Hf; exact Hx]).
  split; [split; [reflexivity|exact He]|]. cbn [v_rest v_fin].
  destruct (vis evs) as [|e r] eqn:Hv.
  - right. split; [reflexivity|]. destruct f as [|m]; [|eauto]. exfalso. destruct (Hf eq_refl) as (_ & n & a & m & Hin).
    assert (Hin' : In (EStart n a m) (vis evs)) by (apply filter_In; split; [exact Hin|reflexivity]). rewrite Hv in Hin'. destruct Hin'.
  - left. destruct e; cbn [ends_in] in He; try contradiction; try (destruct He as [He _]; exfalso; apply He; reflexivity).
    do 4 eexists; reflexivity.
Qed.

Lemma run_nofuel : forall x E fuel id s, fst (vrun (de x E fuel id) (view (d_init s))) <> OFuel ->
  from_events x E fuel id s <> OFuel.
Proof. intros x E fuel id s H. unfold from_events. rewrite (proj1 (run_view _ _ _)). exact H. Qed.

Theorem C17_calm_events : forall x E C id s fuel, calm E C -> C id -> parsed_source s ->
  List.length (s_evs s) + 2 <= fuel -> from_events x E fuel id s <> OFuel.
Proof.
  intros x E C id s fuel HC Hid Hs Hfu. apply run_nofuel. destruct (parsed_view s Hs) as [Ha [(n & a & m & r & Hr)|[Hr [e He]]]].
  - assert (Hl : vlen (view (d_init s)) <= List.length (s_evs s)) by (unfold vlen; apply vis_length).
    assert (Hk := de_keep x E C HC fuel (vlen (view (d_init s))) ltac:(lia) id [] _ n a m r Hid Ha Hr (le_n _)).
    destruct (vrun _ _) as [[]]; cbn [fst]; congruence || contradiction.
  - destruct fuel as [|fuel]; [lia|].
    assert (Hp : vpeek (view (d_init s)) = Er e) by (unfold vpeek; rewrite Hr, He; reflexivity).
    cbn [de]. unfold de_body. destruct (nth_error E id) as [td|]; [|discriminate].
    destruct (t_body td); unfold de_struct, de_enum, de_prim; rewrite ?vrun_peek_; cbn [vrun]; rewrite Hp; discriminate.
Qed.

Theorem C17_root_events : forall x E C id td fs s fuel, calm E C -> struct_type E id td fs -> calm_root C fs ->
  (forall n f, root_named s n -> In f fs -> elem_field f -> (exists t, base_of (f_ty f) = BSimple t) ->
     flabel (t_attrs td) f <> elabel n \/ root_label td = elabel n) ->
  parsed_source s ->
  List.length (s_evs s) + 2 <= fuel -> from_events x E fuel id s <> OFuel.
Proof.
  intros x E C id td fs s fuel HC [Htd Hb] Hroot Hname Hs Hfu. apply run_nofuel.
  destruct fuel as [|fuel]; [lia|]. cbn [de]. unfold de_body. rewrite Htd, Hb.
  destruct (parsed_view s Hs) as [Ha [(n & a & m & r & Hr)|[Hr [e He]]]].
  - assert (Hl : vlen (view (d_init s)) <= List.length (s_evs s)) by (unfold vlen; apply vis_length).
    assert (Hvl : vlen (view (d_init s)) = S (List.length r)) by (unfold vlen; rewrite Hr; reflexivity).
    assert (Hk : keepN [n] (List.length r) (de_struct x E (de x E fuel) fuel td fs) (view (d_init s))).
    { apply (de_struct_keep x E C) with (a := a) (m := m); auto; [|lia|apply de_keep; [exact HC|lia]].
      intros i f t Hff Ht. apply field_for_spec in Hff. destruct Hff as (F1 & F2 & F3 & F4). apply nth_error_In in F1.
      destruct (Hname n f) as [Hx|Hx]; auto; [|split; assumption|eauto|congruence].
      exists a, m, r. rewrite <- Hr. unfold view, d_init. cbn [d_peeked d_src app v_rest]. unfold vis.
      apply filter_ext. intros []; reflexivity. }
    unfold keepN in Hk. destruct (vrun _ _) as [[]]; cbn [fst]; congruence || contradiction.
  - assert (Hp : vpeek (view (d_init s)) = Er e) by (unfold vpeek; rewrite Hr, He; reflexivity).
    unfold de_struct. rewrite vrun_peek_, Hp. discriminate.
Qed.
