(** * The errors of programs, and C51. *)
From Verif Require Import Str Num Xml XmlText Reader Schema De RunFacts SpecReader SpecTree SpecStruct SpecCause TypedProofs TreeFacts
  SourceProofs SpecSafe SafeProofs.
Open Scope list_scope.

(** When everything the reader delivers satisfies [Q], the program returns
    values satisfying [P], errors satisfying [T] or panics satisfying [K]. *)
Inductive outs {A} (Q : res event -> Prop) (P : A -> Prop) (T K : string -> Prop) : prog A -> Prop :=
| os_ret : forall a, P a -> outs Q P T K (Ret a)
| os_throw : forall m, T m -> outs Q P T K (Throw m)
| os_crash : forall m, K m -> outs Q P T K (Crash m)
| os_stuck : outs Q P T K Stuck
| os_peek : forall k, (forall r, Q r -> outs Q P T K (k r)) -> outs Q P T K (Peek k)
| os_next : forall k, (forall r, Q r -> outs Q P T K (k r)) -> outs Q P T K (Next k)
| os_depth : forall k, (forall r, outs Q P T K (k r)) -> outs Q P T K (Depth k).

Lemma outs_bind : forall A B Q (P : A -> Prop) (R : B -> Prop) T K p (f : A -> prog B),
  outs Q P T K p -> (forall a, P a -> outs Q R T K (f a)) -> outs Q R T K (bind p f).
Proof. intros A B Q P R T K p f H Hf; induction H; cbn [bind]; auto; constructor; auto. Qed.
Lemma outs_imp : forall A Q (P R : A -> Prop) (T T' K K' : string -> Prop) p, (forall a, P a -> R a) -> (forall m, T m -> T' m) ->
  (forall m, K m -> K' m) -> outs Q P T K p -> outs Q R T' K' p.
Proof. intros A Q P R T T' K K' p H H' H'' L; induction L; constructor; auto. Qed.
Lemma outs_caught : forall A Q (P : A -> Prop) T T' K p, outs Q P T K p -> outs Q (fun _ => True) T' K (attempt p).
Proof. intros A Q P T T' K p H; induction H; cbn [attempt]; constructor; auto. Qed.
Lemma outs_of_res : forall A Q (P : A -> Prop) (T K : string -> Prop) (r : res A),
  (forall a, r = Ok a -> P a) -> (forall m, r = Er m -> T m) -> outs Q P T K (of_res r).
Proof. intros A Q P T K [a|m] H H'; constructor; auto. Qed.

(** What a source delivers. *)
Definition from (s : stream) (r : res event) : Prop :=
  match r with
  | Ok e => (In e (s_evs s) /\ invisible e = false) \/ (e = EEndDoc /\ s_fin s = FEnd)
  | Er m => s_fin s = FErr m
  end.

Definition overflow : string := "attempt to subtract with overflow".

Definition left_of (s : stream) (st : dstate) : Prop :=
  s_fin (d_src st) = s_fin s /\ (forall e, In e (s_evs (d_src st)) -> In e (s_evs s)) /\
  (forall e, d_peeked st = Some e -> from s (Ok e)).

Lemma inner_from : forall s src r src', s_fin src = s_fin s -> (forall e, In e (s_evs src) -> In e (s_evs s)) ->
  inner_next src = (r, src') ->
  from s r /\ s_fin src' = s_fin s /\ (forall e, In e (s_evs src') -> In e (s_evs s)).
Proof.
  intros s [evs f] r src' Hf H Hi. unfold inner_next in Hi. cbn [s_evs s_fin] in *. subst f.
  assert (Hg : forall l r0 l', (forall e, In e l -> In e (s_evs s)) -> inner_next_evs l (s_fin s) = (r0, l') ->
    from s r0 /\ (forall e, In e l' -> In e (s_evs s))).
  { induction l as [|e l IH]; intros r0 l' Hl Hn; cbn [inner_next_evs] in Hn.
    - inversion Hn; subst. split; [|intros e []]. unfold from. destruct (s_fin s); [right; split; reflexivity|reflexivity].
    - destruct (invisible e) eqn:He; [apply IH; [intros e' H'; apply Hl; right; exact H'|exact Hn]|].
      inversion Hn; subst. split; [left; split; [apply Hl; left; reflexivity|exact He]|].
      intros e' H'; apply Hl; right; exact H'. }
  destruct (inner_next_evs evs (s_fin s)) as [r0 l'] eqn:Hn. inversion Hi; subst. cbn [s_evs s_fin].
  destruct (Hg evs r l' H Hn) as [H1 H2]. split; [exact H1|]. split; [reflexivity|exact H2].
Qed.

Lemma outs_run : forall A s (P : A -> Prop) T (K : string -> Prop) p, outs (from s) P T K p -> forall st, left_of s st ->
  match fst (run p st) with OOk a => P a | OErr m => T m | OPanic m => K m \/ m = overflow | OFuel => True end.
Proof.
  intros A s P T K p H; induction H as [a Ha|m Hm|m Hm| |k Hk IH|k Hk IH|k Hk IH]; intros st Hh; cbn [run fst]; auto.
  - destruct (peek st) as [r st'] eqn:Hp. unfold peek in Hp. destruct Hh as (H0 & H1 & H2).
    destruct (d_peeked st) as [e|] eqn:Hd.
    + inversion Hp; subst. apply (IH (Ok e) (H2 e eq_refl) st'). split; [exact H0|]. split; [exact H1|rewrite Hd; exact H2].
    + destruct (inner_next (d_src st)) as [[e|m] src] eqn:Hi; destruct (inner_from _ _ _ _ H0 H1 Hi) as (Ho & Hf & Hs); inversion Hp; subst.
      * apply (IH (Ok e) Ho). split; [exact Hf|]. split; [exact Hs|intros e' E'; inversion E'; subst; exact Ho].
      * apply (IH (Er m) Ho). split; [exact Hf|]. split; [exact Hs|intros e' E'; discriminate].
  - unfold next_event. destruct Hh as (H0 & H1 & H2).
    assert (Hg : forall r src, from s r -> s_fin src = s_fin s -> (forall e, In e (s_evs src) -> In e (s_evs s)) ->
      match fst (let '(o, st') := match r with
             | Er m => (Some (Er m), DState (d_depth st) src None)
             | Ok e => match bump (d_depth st) e with
                       | Some d => (Some (Ok e), DState d src None)
                       | None => (None, DState (d_depth st) src None)
                       end
             end in match o with Some r => run (k r) st' | None => (OPanic overflow, st') end)
        with OOk a => P a | OErr m => T m | OPanic m => K m \/ m = overflow | OFuel => True end).
    { intros r src Ho Hf Hs. destruct r as [e|m].
      - destruct (bump (d_depth st) e); [|right; reflexivity].
        apply (IH (Ok e) Ho). split; [exact Hf|]. split; [exact Hs|intros e' E'; discriminate].
      - apply (IH (Er m) Ho). split; [exact Hf|]. split; [exact Hs|intros e' E'; discriminate]. }
    destruct (d_peeked st) as [e|].
    + pose proof (Hg (Ok e) (d_src st) (H2 e eq_refl) H0 H1) as HK. exact HK.
    + destruct (inner_next (d_src st)) as [r src] eqn:Hi. destruct (inner_from _ _ _ _ H0 H1 Hi) as (Ho & Hf & Hs).
      exact (Hg r src Ho Hf Hs).
  - apply IH. exact Hh.
Qed.

Lemma outs_source : forall A s (P : A -> Prop) T (K : string -> Prop) p, outs (from s) P T K p ->
  match fst (run p (d_init s)) with OOk a => P a | OErr m => T m | OPanic m => K m \/ m = overflow | OFuel => True end.
Proof.
  intros A s P T K p H. apply (outs_run A s P T K p H). split; [reflexivity|]. split; [intros e He; exact He|intros e He; discriminate].
Qed.

Ltac os := first [apply os_stuck | apply os_crash | apply os_ret | apply os_throw | apply os_peek; intros ? ? | apply os_next; intros ? ?
                 | apply os_depth; intro].

(** ** C51 *)

(** No events that the parser never delivers. *)
Definition plain_event (e : event) : Prop := match e with ECData _ | EWhitespace _ | EEndDoc => False | _ => True end.
Definition plain (s : stream) : Prop := forall e, In e (s_evs s) -> plain_event e.

(** Slots of the kind of their fields. *)
Definition many (sl : slot) : bool := match sl with SMany _ => true | SOne _ => false end.
Definition kinds_of (fs : list field) (ss : list slot) : Prop := map many ss = map (fun f => is_list (f_ty f)) fs.
Lemma kinds_put : forall fs i v ss, kinds_of fs ss -> kinds_of fs (upd i (put_slot v) ss).
Proof.
  intros fs i v ss H. unfold kinds_of in *. rewrite <- H. clear H. revert i. induction ss as [|sl ss IH]; intros [|i]; cbn [upd map]; auto.
  - f_equal. destruct sl; reflexivity.
  - f_equal. apply IH.
Qed.
Lemma kinds_one : forall fs i f v ss, nth_error fs i = Some f -> is_list (f_ty f) = false ->
  kinds_of fs ss -> kinds_of fs (upd i (fun _ => SOne v) ss).
Proof.
  unfold kinds_of. induction fs as [|g fs IH]; intros [|i] f v [|sl ss] Hf Hl H; try discriminate; cbn [upd map nth_error] in *.
  - injection Hf as ->. injection H as _ H. rewrite Hl, H. reflexivity.
  - injection H as H0 H. rewrite H0. f_equal. eapply IH; eauto.
Qed.
Lemma kinds_text : forall t fs ss, kinds_of fs ss -> kinds_of fs (set_text t fs ss).
Proof.
  unfold kinds_of. intros t; induction fs as [|g fs IH]; intros [|sl ss] H; try discriminate; cbn [set_text map] in *; [reflexivity|].
  injection H as H0 H. f_equal; [|apply IH; exact H]. rewrite <- H0. unfold set_text1.
  destruct (ya_text (f_attrs g)); [|reflexivity]. destruct (f_ty g) as [[[]|]|[[]|]|b|b]; try reflexivity; destruct sl; try reflexivity; discriminate.
Qed.
Lemma kinds_init : forall fs, kinds_of fs (map (fun f => init_slot (f_ty f)) fs).
Proof. intros fs. unfold kinds_of. rewrite map_map. apply map_ext. intros f. destruct (f_ty f); reflexivity. Qed.

(** Panics, and those that do not happen on nested events in environments
    that are [defined]. *)
Definition Falls (x : ext) (E : env) (id : nat) (s : stream) (m : string) : Prop :=
  Panics x E id s m \/
  In m [overflow; "called `Option::unwrap()` on a `None` value"; "unknown type"; "flatten is not implemented"].
Ltac odd := right; cbn [In]; auto 6.

Section Causes.
  Variable x : ext.
  Variable E : env.
  Variable rec : nat -> prog value.
  Variable fuel : nat.
  Hypothesis Hrec : forall s, plain s -> forall id, outs (from s) (fun _ => True) (Cause x E id s) (Falls x E id s) (rec id).
  Variable s : stream.
  Hypothesis Hs : plain s.
  Notation Any := (fun _ => True).

  Lemma outs_from_str : forall id t, plain (parse_text t) -> forall Q, outs Q Any (Cause x E id (parse_text t)) (Falls x E id (parse_text t)) (from_str_in rec id t).
  Proof.
    intros id t Ht Q. unfold from_str_in. pose proof (outs_source _ _ _ _ _ _ (Hrec _ Ht id)) as H.
    destruct (fst (run (rec id) (d_init (parse_text t)))) as [v|m|m|]; os; auto.
    destruct H as [H| ->]; [exact H|odd].
  Qed.
  Hypothesis Hparse : forall t, plain (parse_text t).

  Section Type_.
  Variable id : nat.
  Notation O P p := (outs (from s) P (Cause x E id s) (Falls x E id s) p).

  Lemma o_peek : O (fun e => from s (Ok e)) peek_.
  Proof. apply os_peek. intros [e|m] H; os; [exact H|]. apply ca_malformed. exact H. Qed.
  Lemma o_next : O (fun e => from s (Ok e)) next_.
  Proof. apply os_next. intros [e|m] H; os; [exact H|]. apply ca_malformed. exact H. Qed.

  Lemma o_inner : forall A Q K (p : prog A), outs Q Any Any K p -> outs Q Any Any K (read_inner_value p).
  Proof.
    intros A Q K p H. unfold read_inner_value. apply os_next. intros [[]|] _; try (os; exact I).
    apply outs_bind with (P := Any); [exact H|]. intros a _. apply outs_bind with (P := Any); [|intros _ _; os; exact I].
    unfold expect_end_element, next_. apply outs_bind with (P := Any); [apply os_next; intros [] _; os; exact I|].
    intros [] _; try (os; exact I). destruct (name_eqb _ _); os; exact I.
  Qed.

  Definition fair (u : uwriter) : Prop := match u with ULive _ l => copied s l | _ => True end.
  Lemma o_write : forall u e, fair u -> from s (Ok e) -> O fair (write_unused u e).
  Proof.
    intros u e Hu He. unfold write_unused. destruct u as [| |stk l]; try (os; exact I).
    destruct (as_writer_event e) as [w|] eqn:Hw; [|os; odd]. destruct (emit_check stk w) as [stk' ok]. os.
    destruct ok; [|exact I]. intros w' Hin. apply in_app_or in Hin. destruct Hin as [Hin|[<-|[]]]; [exact (Hu w' Hin)|].
    exists e. destruct He as [[He _]|[-> _]]; [split; assumption|discriminate].
  Qed.
  Lemma o_skip : forall fl d u, fair u -> O fair (skip_loop fl d write_unused u).
  Proof.
    induction fl as [|fl IH]; intros d u Hu; cbn [skip_loop]; [os|]. os. destruct (Nat.leb d r); [|os; exact Hu].
    eapply outs_bind; [apply o_next|]. intros e He. eapply outs_bind; [apply o_write; [exact Hu|exact He]|]. intros u' Hu'. apply IH. exact Hu'.
  Qed.

    Lemma o_ns_type : forall td e msg, from s (Ok e) ->
      namespace_check (ya_namespaces (t_attrs td)) (ya_prefix (t_attrs td))
        (match e with EStart n _ _ => n_ns n | _ => None end) (match e with EStart n _ _ => n_local n | _ => de_root td end) = Some msg ->
      nth_error E id = Some td -> Cause x E id s msg.
    Proof.
      intros td e msg He Hc Htd. destruct e as [| | |n a nm|n|t|t|t|t]; try discriminate.
      assert (Hin : In (EStart n a nm) (s_evs s)) by (destruct He as [[He _]|[He _]]; [exact He|discriminate]).
      unfold namespace_check in Hc. destruct (n_ns n) as [u|] eqn:Hu; [|discriminate].
      destruct (match ya_prefix (t_attrs td) with Some p => _ | None => false end) eqn:Hok; [discriminate|]. injection Hc as <-.
      eapply ca_namespace with (p := ya_prefix (t_attrs td)); eauto.
      intros (q & Hq & Hg). rewrite Hq, Hg, String.eqb_refl in Hok. discriminate.
    Qed.

  Section Struct.
    Variable td : typedef.
    Variable fs : list field.
    Hypothesis Htd : struct_type E id td fs.
    Notation kinds := (kinds_of fs).

    Lemma o_visit_attr : forall f n a nm t, In f fs -> ya_attribute (f_attrs f) = true -> In (EStart n a nm) (s_evs s) ->
      gives a f t -> O Any (visit_attr x E rec (base_of (f_ty f)) t).
    Proof.
      intros f n a nm t Hf Ha He Hg. unfold visit_attr. destruct (base_of (f_ty f)) as [sm|id'] eqn:Hb.
      - apply outs_of_res; [auto|]. intros m Hm. eapply ca_attribute; eauto.
      - destruct (nth_error E id') as [td'|] eqn:Htd'; [|os; odd].
        eapply outs_imp; [..|apply outs_from_str; apply Hparse]; [auto| |]; intros m Hm; [eapply ca_wrapped; eauto|].
        destruct Hm as [Hm|Hm]; [left; eapply pa_wrapped; eauto|right; exact Hm].
    Qed.

    Lemma o_load_attr : forall f i n a nm, In f fs -> ya_attribute (f_attrs f) = true -> In (EStart n a nm) (s_evs s) ->
      forall al ss, (forall b, In b al -> In b a) -> kinds ss -> O kinds (load_attr x E rec f i al ss).
    Proof.
      intros f i n a nm Hf Ha He al; induction al as [|b al IH]; intros ss Hal Hk; cbn [load_attr]; [os; exact Hk|].
      apply outs_bind with (P := kinds); [|intros ss' Hk'; apply IH; [intros c Hc; apply Hal; right; exact Hc|exact Hk']].
      destruct (String.eqb_spec (n_local (at_name b)) (field_local f)) as [Hn|]; [|os; exact Hk].
      assert (Hone : is_list (f_ty f) = false -> O kinds (bind (visit_attr x E rec (base_of (f_ty f)) (at_value b))
                (fun v => Ret (upd i (put_slot v) ss)))).
      { intros Hl. eapply outs_bind; [|intros v _; os; apply kinds_put; exact Hk]. eapply o_visit_attr; eauto.
        exists b. split; [apply Hal; left; reflexivity|]. split; [exact Hn|]. unfold part_of. rewrite Hl. reflexivity. }
      assert (Hmany : is_list (f_ty f) = true -> O kinds (visit_attr_items x E rec (base_of (f_ty f)) i (split_ws (at_value b)) ss)).
      { intros Hl. clear Hone. assert (Hit : forall t, In t (split_ws (at_value b)) -> gives a f t).
        { intros t Ht. exists b. split; [apply Hal; left; reflexivity|]. split; [exact Hn|]. unfold part_of. rewrite Hl. exact Ht. }
        revert Hit ss Hk. generalize (split_ws (at_value b)). induction l as [|t ts IHt]; intros Hit ss0 Hk; cbn [visit_attr_items]; [os; exact Hk|].
        eapply outs_bind; [eapply o_visit_attr; eauto; apply Hit; left; reflexivity|]. intros v _. apply IHt.
        - intros t' Ht'. apply Hit. right; exact Ht'.
        - apply kinds_put. exact Hk. }
      destruct (f_ty f) as [[[| | |]|]|b'|b'|b']; try (os; apply kinds_put; exact Hk); cbn [base_of] in *; try (apply Hone; reflexivity); apply Hmany; reflexivity.
    Qed.

    Lemma o_load_attrs : forall n a nm, In (EStart n a nm) (s_evs s) -> forall gs i ss, (forall g, In g gs -> In g fs) -> kinds ss ->
      O kinds (load_attrs x E rec gs i a ss).
    Proof.
      intros n a nm He gs; induction gs as [|g gs IH]; intros i ss Hg Hk; cbn [load_attrs]; [os; exact Hk|].
      apply outs_bind with (P := kinds); [|intros ss' Hk'; apply IH; [intros h Hh; apply Hg; right; exact Hh|exact Hk']].
      destruct (ya_attribute (f_attrs g)) eqn:Ha; [|os; exact Hk]. eapply o_load_attr; eauto. apply Hg; left; reflexivity.
    Qed.

    Lemma o_ns_field : forall f n a nm msg, In f fs -> In (EStart n a nm) (s_evs s) ->
      namespace_check (ya_namespaces (t_attrs td)) (ya_prefix (f_attrs f)) (n_ns n) (n_local n) = Some msg -> Cause x E id s msg.
    Proof.
      intros f n a nm msg Hf He Hc. unfold namespace_check in Hc. destruct (n_ns n) as [u|] eqn:Hu; [|discriminate].
      destruct (match ya_prefix (f_attrs f) with Some p => _ | None => false end) eqn:Hok; [discriminate|]. injection Hc as <-.
      eapply ca_namespace with (p := ya_prefix (f_attrs f)); eauto; [apply Htd| |].
      - right. exists fs, f. split; [apply Htd|]. split; [exact Hf|reflexivity].
      - intros (q & Hq & Hg). rewrite Hq, Hg, String.eqb_refl in Hok. discriminate.
    Qed.

    Lemma o_loop : forall fl ln sd st, fair (l_unused st) /\ kinds (l_slots st) ->
      O (fun st => fair (l_unused st) /\ kinds (l_slots st)) (struct_loop x E rec fuel fl td fs ln sd st).
    Proof.
      induction fl as [|fl IH]; intros ln sd st [Hu Hk]; cbn [struct_loop]; [os|].
      eapply outs_bind; [apply o_peek|]. intros e He.
      assert (Hpl : match e with ECData _ | EWhitespace _ => False | _ => True end) by (destruct He as [[He _]|[He _]]; [apply Hs in He; destruct e; try exact I; exact He|subst e; exact I]).
      assert (Hin : forall n a nm, e = EStart n a nm -> In (EStart n a nm) (s_evs s))
        by (intros n a nm ->; destruct He as [[He _]|[He _]]; [exact He|discriminate]).
      destruct e as [| | |n attrs nsm|n|t|t|t|t]; try (destruct He as [[_ He]|[He _]]; discriminate He); try destruct Hpl.
      - destruct (ya_flatten (t_attrs td)); [os; split; assumption|apply IH; split; assumption].
      - specialize (Hin n attrs nsm eq_refl).
        apply outs_bind with (P := fun st => fair (l_unused st) /\ kinds (l_slots st)).
        + destruct (_ && _)%bool.
          * eapply outs_bind; [apply o_next|]. intros ev Hev. eapply outs_bind; [apply o_write; [exact Hu|exact Hev]|]. intros u Hu'. os. split; assumption.
          * destruct (find_field (t_attrs td) fs 0 (opt_default "" (n_ns n)) (n_local n)) as [[j g]|] eqn:Hff.
            -- pose proof (find_field_nth fs _ _ _ _ _ _ _ Hff (fun k g H => H)) as Hj. apply nth_error_In in Hj.
               rewrite find_field_for in Hff. destruct (field_for_spec _ _ _ _ _ Hff) as (_ & Ha & Hfl & _).
               apply outs_bind with (P := kinds); [|intros ss Hk'; os; split; assumption].
               replace (fbase (f_ty g)) with (base_of (f_ty g)) by (destruct (f_ty g); reflexivity).
               destruct (base_of (f_ty g)) as [sm|id'] eqn:Hb.
               ++ unfold arm_simple. destruct (namespace_check _ _ _ _) as [msg|] eqn:Hnc; [os; eapply o_ns_field; eauto|].
                  apply outs_bind with (P := Any); [|intros [v|m] _; os; [apply kinds_put|]; exact Hk].
                  apply outs_caught with (P := Any) (T := Any). apply o_inner. os.
                  destruct r as [[]|]; try (os; exact I). apply outs_bind with (P := Any); [apply os_next; intros [] _; os; exact I|].
                  intros _ _. apply outs_of_res; auto.
               ++ unfold arm_struct.
                  assert (Hgo : O kinds (Peek (fun r => match r with
                    | Ok (EStart _ _ _) => bind (rec id') (fun v => bind next_ (fun _ => Ret (upd j (put_slot v) (l_slots st))))
                    | _ => Ret (l_slots st) end))).
                  { os. destruct r as [[]|]; try (os; exact Hk).
                    eapply outs_bind; [eapply outs_imp; [..|apply (Hrec s Hs id')]|].
                    - intros a Hx; exact Hx.
                    - intros m Hm. eapply ca_field; eauto. split; assumption.
                    - intros m [Hm|Hm]; [left; eapply pa_field; eauto; split; assumption|right; exact Hm].
                    - intros v _. eapply outs_bind; [apply o_next|]. intros _ _. os. apply kinds_put. exact Hk. }
                  destruct (Z.eqb (l_depth st) 0); [os|]; exact Hgo.
            -- eapply outs_bind; [apply o_next|]. intros ev Hev. eapply outs_bind; [apply o_write; [exact Hu|exact Hev]|]. intros u Hu'.
               apply outs_bind with (P := fair); [|intros u' Hu2; os; split; assumption].
               destruct (Z.ltb 0 (l_depth st)); [|os; exact Hu']. unfold skip_element. os. apply o_skip. exact Hu'.
        + intros st1 [Hu1 Hk1]. apply outs_bind with (P := kinds).
          * destruct (Z.eqb (l_depth st1) 0); [|os; exact Hk1]. eapply o_load_attrs; eauto.
          * intros ss Hss. apply IH. split; assumption.
      - os. destruct (_ && _)%bool.
        + eapply outs_bind; [apply o_write; [exact Hu|exact He]|]. intros u Hu'. os. split; assumption.
        + eapply outs_bind; [apply o_next|]. intros ev Hev. eapply outs_bind; [apply o_write; [exact Hu|exact Hev]|]. intros u Hu'.
          apply IH. split; assumption.
      - eapply outs_bind; [apply o_next|]. intros ev Hev. eapply outs_bind; [apply o_write; [exact Hu|exact Hev]|]. intros u Hu'.
        apply IH. split; [exact Hu'|apply kinds_text; exact Hk].
    Qed.

    Lemma o_flatten : forall l, copied s l -> forall gs i ss, (forall k g, nth_error gs k = Some g -> nth_error fs (i + k) = Some g) ->
      kinds ss -> O kinds (visit_flatten rec gs i (emit_text default_econf l) ss).
    Proof.
      intros l Hl gs; induction gs as [|g gs IH]; intros i ss Hg Hk; cbn [visit_flatten]; [os; exact Hk|].
      apply outs_bind with (P := kinds).
      2:{ intros ss' Hk'; apply IH; [|exact Hk']. intros k h Hh. rewrite Nat.add_succ_comm. apply Hg. exact Hh. }
      destruct (_ && _)%bool eqn:Hb; [|os; exact Hk].
      specialize (Hg 0 g eq_refl). rewrite Nat.add_0_r in Hg.
      destruct (f_ty g) as [[|id']|[|id']|b|b] eqn:Hty; try (os; odd; fail).
      - eapply outs_bind; [eapply outs_imp; [..|apply outs_from_str; apply Hparse]|].
        + intros a Hx; exact Hx.
        + intros m Hm. eapply ca_flattened; eauto. apply nth_error_In in Hg. exact Hg.
        + intros m [Hm|Hm]; [left; eapply pa_flattened; eauto; [apply nth_error_In in Hg; exact Hg|rewrite Hty; reflexivity]|right; exact Hm].
        + intros v _. os. eapply kinds_one; eauto. rewrite Hty. reflexivity.
      - eapply outs_bind; [eapply outs_caught with (P := Any) (T := Any); eapply outs_imp; [..|apply outs_from_str; apply Hparse]; auto|].
        + intros m [Hm|Hm]; [left; eapply pa_flattened; eauto; [apply nth_error_In in Hg; exact Hg|rewrite Hty; reflexivity]|right; exact Hm].
        + intros r _. os. eapply kinds_one; eauto. rewrite Hty. reflexivity.
    Qed.

    Lemma build_cause : forall gs ss m, (forall g, In g gs -> In g fs) -> kinds_of gs ss ->
      build x (t_name td) gs ss = Er m -> Cause x E id s m.
    Proof.
      unfold kinds_of. induction gs as [|g gs IH]; intros ss m Hg Hk Hb; cbn [build] in Hb; [discriminate|].
      destruct ss as [|sl ss]; [discriminate|]. cbn [map] in Hk. injection Hk as Hsl Hk. destruct (build1 x (t_name td) g sl) as [v|m'] eqn:H1.
      - destruct (build x (t_name td) gs ss) as [vs|m'] eqn:H2; [discriminate|]. injection Hb as <-.
        apply (IH ss m'); [intros h Hh; apply Hg; right; exact Hh|exact Hk|exact H2].
      - injection Hb as <-. unfold build1 in H1.
        destruct (f_ty g) as [b|b|b|b] eqn:Hty; destruct sl as [o|l]; try discriminate.
        destruct o as [v|]; [discriminate|].
        destruct (ya_default (f_attrs g)) as [d|] eqn:Hd; [discriminate|]. injection H1 as <-.
        eapply ca_required; [exact Htd|apply Hg; left; reflexivity|]. unfold missing_value. rewrite Hty, Hd. reflexivity.
    Qed.

    Lemma o_struct : O Any (de_struct x E rec fuel td fs).
    Proof.
      unfold de_struct. eapply outs_bind; [apply o_peek|]. intros e He.
      replace (match e with EStart n _ _ => (n_local n, n_ns n) | _ => (de_root td, None) end)
        with (match e with EStart n _ _ => n_local n | _ => de_root td end, match e with EStart n _ _ => n_ns n | _ => None end)
        by (destruct e; reflexivity).
      os. destruct (if Nat.eqb r 0 then _ else _) as [msg|] eqn:Hc.
      { os. destruct (Nat.eqb r 0); [|discriminate]. exact (o_ns_type td e msg He Hc (proj1 Htd)). }
      eapply outs_bind; [apply o_loop; split; [|apply kinds_init]|].
      { cbn [l_unused]. unfold init_unused. destruct (has_flatten fs); [intros w []|exact I]. }
      intros st [Hu Hk]. apply outs_bind with (P := kinds).
      - unfold visit_unused. destruct (l_unused st) as [| |stk l]; try (os; exact Hk). apply o_flatten; auto.
      - intros ss Hss. apply outs_bind with (P := Any); [|intros vs _; os; exact I].
        apply outs_of_res; [auto|]. intros m Hm. eapply build_cause; eauto.
    Qed.
  End Struct.

  Section Enum.
    Variable td : typedef.
    Variable vs : list variant.
    Variable dflt : value.
    Hypothesis Htd : nth_error E id = Some td.
    Hypothesis Hbody : t_body td = DEnum vs dflt.

    Lemma find_variant_in : forall nm ws i j b, (forall w, In w ws -> In w vs) -> find_variant ws i nm = Some (j, b) ->
      exists l a, In (Variant l a b) vs.
    Proof.
      intros nm ws; induction ws as [|[l a b0] ws IH]; intros i j b Hw Hf; [discriminate|]. cbn [find_variant v_body v_attrs v_label] in Hf.
      assert (Hr : find_variant ws (S i) nm = Some (j, b) -> exists l a, In (Variant l a b) vs)
        by (apply IH; intros w H; apply Hw; right; exact H).
      destruct b0 as [|fl t|gs]; [| |exact (Hr Hf)]; destruct (String.eqb _ nm); try exact (Hr Hf); injection Hf as <- <-;
        exists l, a; apply Hw; left; reflexivity.
    Qed.

    Lemma o_set : forall l a fl t i v cur, In (Variant l a (VbNew fl t)) vs -> O Any (set_payload t i v cur).
    Proof.
      intros l a fl t i v cur Hin. unfold set_payload. destruct t as [b|b|b|b]; try (os; exact I).
      destruct cur as [c|]; [|os; exact I].
      assert (Hm : Cause x E id s "Got sequence of different types") by (eapply ca_mixed; eauto).
      destruct c as [| | | | | | | |j [|[] [|]]]; try (os; exact Hm). destruct (Nat.eqb i j); os; [exact I|exact Hm].
    Qed.

    Lemma o_read_payload : forall l a fl t sm, In (Variant l a (VbNew fl t)) vs -> base_of t = BSimple sm -> O Any (read_payload x sm).
    Proof.
      intros l a fl t sm Hin Hb. unfold read_payload. apply outs_caught with (P := Any) (T := Any). apply o_inner.
      assert (Hun : forall u, u = "" \/ In (EChars u) (s_evs s) -> outs (from s) Any Any (Falls x E id s) (visit_unwrap x sm u)).
      { intros u Hu. unfold visit_unwrap. destruct (parse_simple x sm u) as [v|m] eqn:Hp; [os; exact I|]. os. left. eapply pa_payload; eauto. }
      apply outs_bind with (P := Any); [apply os_peek; intros [] _; os; exact I|]. intros e _.
      assert (Hnx : outs (from s) Any Any (Falls x E id s) (Next (fun r => match r with Ok (EChars t) => visit_unwrap x sm t
        | _ => Throw "unable to parse content for field_0" end))).
      { apply os_next. intros [[]|] Hr; try (os; exact I). apply Hun. right. destruct Hr as [[Hr _]|[Hr _]]; [exact Hr|discriminate]. }
      destruct e; try exact Hnx. apply Hun. left; reflexivity.
    Qed.

    Lemma o_arm : forall l a i b cur, In (Variant l a b) vs -> O Any (enum_arm x rec i b cur).
    Proof.
      intros l a i b cur Hin. unfold enum_arm. destruct b as [|fl t|gs]; try (os; exact I).
      replace (fbase t) with (base_of t) by (destruct t; reflexivity). destruct (base_of t) as [sm|id'] eqn:Hb.
      - eapply outs_bind; [eapply o_read_payload; eauto|]. intros [v|m] _; [|os; exact I].
        eapply outs_bind; [eapply o_set; eauto|]. intros c _. os. exact I.
      - eapply outs_bind; [eapply outs_imp; [..|apply (Hrec s Hs id')]|].
        + intros v Hv; exact Hv.
        + intros m Hm. eapply ca_payload; eauto.
        + intros m [Hm|Hm]; [left; eapply pa_nested; eauto|right; exact Hm].
        + intros v _. eapply outs_bind; [eapply o_set; eauto|]. intros c _. os. os. exact I.
    Qed.

    Lemma o_enum_loop : forall fl ln sd cur, O Any (enum_loop x rec fl td vs ln sd cur).
    Proof.
      induction fl as [|fl IH]; intros ln sd cur; cbn [enum_loop]; [os|].
      eapply outs_bind; [apply o_peek|]. intros e He.
      assert (Hpl : match e with ECData _ | EWhitespace _ => False | _ => True end) by (destruct He as [[He _]|[He _]]; [apply Hs in He; destruct e; try exact I; exact He|subst e; exact I]).
      assert (Hin : forall n a nm, e = EStart n a nm -> In (EStart n a nm) (s_evs s))
        by (intros n a nm ->; destruct He as [[He _]|[He _]]; [exact He|discriminate]).
      destruct e as [| | |n attrs nsm|n|t|t|t|t]; try (destruct He as [[_ He]|[He _]]; discriminate He); try destruct Hpl.
      - destruct (ya_flatten (t_attrs td)) eqn:Hfl; os; [exact I|]. eapply ca_end; eauto.
        destruct He as [[He _]|[_ He]]; [destruct (Hs _ He)|exact He].
      - specialize (Hin n attrs nsm eq_refl). apply outs_bind with (P := Any).
        + apply outs_of_res; [auto|]. intros m Hm. unfold enum_element_name in Hm.
          destruct (ya_tag (t_attrs td)) as [tg|] eqn:Htag; [|discriminate].
          destruct (find _ attrs) as [b|] eqn:Hfind; [discriminate|]. injection Hm as <-.
          eapply ca_tag; eauto. intros b Hb Hn. apply (find_none _ _ Hfind) in Hb. rewrite Hn, String.eqb_refl in Hb. discriminate.
        + intros nm _. apply outs_bind with (P := Any).
          * destruct (find_variant vs 0 nm) as [[i b]|] eqn:Hfv.
            -- destruct (find_variant_in _ _ _ _ _ (fun w H => H) Hfv) as (l & a & Hv). eapply o_arm; eauto.
            -- os. os. exact I.
          * intros [cur1 brk] _. destruct brk; [os; exact I|]. eapply outs_bind; [apply o_peek|]. intros e2 _.
            destruct e2; try apply IH.
            apply outs_bind with (P := Any).
            -- destruct (find_variant vs 0 s0) as [[i b]|] eqn:Hfv; [|os; exact I].
               destruct (find_variant_in _ _ _ _ _ (fun w H => H) Hfv) as (l & a & Hv). eapply o_arm; eauto.
            -- intros [cur2 brk2] _. destruct brk2; [os; exact I|apply IH].
      - os. destruct (_ && _)%bool; [os; exact I|]. os. apply IH.
      - os. apply IH.
    Qed.

    Lemma o_enum : O Any (de_enum x rec fuel td vs dflt).
    Proof.
      unfold de_enum. eapply outs_bind; [apply o_peek|]. intros e He.
      replace (match e with EStart n _ _ => (n_local n, n_ns n) | _ => (de_root td, None) end)
        with (match e with EStart n _ _ => n_local n | _ => de_root td end, match e with EStart n _ _ => n_ns n | _ => None end)
        by (destruct e; reflexivity).
      os. destruct (namespace_check _ _ _ _) as [msg|] eqn:Hc.
      { os. exact (o_ns_type td e msg He Hc Htd). }
      eapply outs_bind; [apply o_enum_loop|]. intros o _. os. exact I.
    Qed.
  End Enum.

  Lemma o_prim : forall td k, nth_error E id = Some td -> t_body td = DPrim k -> O Any (de_prim x td k).
  Proof.
    intros td k Htd Hb. unfold de_prim. os.
    assert (Hst : Cause x E id s "Start element not found") by (eapply ca_element; eauto).
    destruct r as [[]|]; try (os; exact Hst). eapply outs_bind; [apply o_next|]. intros _ _. apply os_peek. intros r2 Hr2.
    apply outs_of_res; [auto|]. intros m Hm. eapply ca_newtype; [exact Htd|exact Hb| |exact Hm].
    destruct r2 as [[]|]; auto. right. destruct Hr2 as [[Hr2 _]|[Hr2 _]]; [exact Hr2|discriminate].
  Qed.

  Lemma o_body : O Any (de_body x E rec fuel id).
  Proof.
    unfold de_body. destruct (nth_error E id) as [td|] eqn:Htd; [|os; odd]. destruct (t_body td) as [fs|vs d|k] eqn:Hb.
    - apply o_struct. split; assumption.
    - eapply o_enum; eauto.
    - eapply o_prim; eauto.
  Qed.
  End Type_.
End Causes.

Theorem de_causes : forall x E, (forall t, plain (parse_text t)) ->
  forall fuel s, plain s -> forall id, outs (from s) (fun _ => True) (Cause x E id s) (Falls x E id s) (de x E fuel id).
Proof.
  intros x E Hp; induction fuel as [|fuel IH]; intros s Hs id; cbn [de]; [os|]. apply o_body; assumption.
Qed.

(** ** The events of texts *)
Definition plain_out (st : pst) : Prop := forall e, In e (p_out st) -> plain_event e.
Lemma plain_mode : forall st m, plain_out st -> plain_out (set_mode st m).
Proof. intros st m H; exact H. Qed.
Lemma plain_fail : forall st m, plain_out st -> plain_out (pfail st m).
Proof. intros st m H; exact H. Qed.
Lemma plain_same : forall st st', p_out st' = p_out st -> plain_out st -> plain_out st'.
Proof. intros st st' H1 H. unfold plain_out. rewrite H1. exact H. Qed.
Lemma plain_end_raw : forall st m, plain_out st -> plain_out (end_raw st m).
Proof. intros st m H. unfold end_raw. destruct (unesc (p_raw st)); exact H. Qed.
Lemma plain_snoc : forall l e, (forall e, In e l -> plain_event e) -> plain_event e -> forall e', In e' (l ++ [e]) -> plain_event e'.
Proof. intros l e H He e' Hin. apply in_app_or in Hin. destruct Hin as [Hin|[<-|[]]]; auto. Qed.
Lemma plain_flush : forall st m, plain_out st -> plain_out (flush st m).
Proof.
  intros st m H. unfold flush. destruct (p_nonws st); [|exact H]. destruct (p_stack st); [exact H|].
  unfold plain_out. cbn [p_out]. apply plain_snoc; [exact H|exact I].
Qed.
Lemma plain_start : forall st q ats b, plain_out st -> plain_out (start_tag st q ats b).
Proof.
  intros st q ats b H. unfold start_tag. destruct (bad_tag q ats); [exact H|].
  destruct (resolve_elem _ q); [|exact H]. destruct (resolve_attrs _ ats); [|exact H].
  destruct b; unfold plain_out; cbn [p_out].
  - intros e He. apply in_app_or in He. destruct He as [He|[<-|[<-|[]]]]; [auto|exact I|exact I].
  - apply plain_snoc; [exact H|exact I].
Qed.
Lemma plain_end : forall st q, plain_out st -> plain_out (end_tag st q).
Proof.
  intros st q H. unfold end_tag. destruct (p_stack st) as [|s ss]; [exact H|].
  destruct (p_names st) as [|n ns]; [exact H|]. destruct (p_nss st); [exact H|].
  destruct (String.eqb s q); [|exact H]. unfold plain_out; cbn [p_out]. apply plain_snoc; [exact H|exact I].
Qed.
Lemma plain_step : forall st c, plain_out st -> plain_out (pstep st c).
Proof.
  intros st c H. unfold pstep.
  destruct (illegal_char c); [destruct (p_mode st); auto using plain_fail|].
  destruct (p_mode st);
    repeat match goal with
    | |- plain_out (if ?b then _ else _) => destruct b
    | |- plain_out (match ?b with Some _ => _ | None => _ end) => destruct b
    end;
    auto using plain_mode, plain_fail, plain_end_raw, plain_flush, plain_start, plain_end;
    try (apply (plain_same st); [reflexivity|exact H]).
  all: unfold plain_out; cbn [p_out]; apply plain_snoc; [exact H|exact I].
Qed.
Theorem parse_plain : forall s, plain (parse_text s).
Proof.
  intros s. unfold parse_text.
  assert (H : plain_out (prun p0 s)).
  { assert (H0 : plain_out p0) by (intros e [<-|[]]; exact I). revert H0. generalize p0.
    induction s as [|c s IH]; intros st H0; [exact H0|]. cbn [prun]. apply IH. apply plain_step. exact H0. }
  destruct (prun p0 s) as [m o st nm ns rw bf nw se]. unfold plain_out in H. cbn [p_out] in H.
  unfold pfinish. cbn [p_mode]. destruct m; try exact H.
  unfold end_raw. cbn [p_raw]. destruct (unesc rw); [|exact H].
  cbn [p_mode p_out p_stack p_names p_nss p_raw p_buf p_nonws p_seen pfail set_mode].
  destruct st; [destruct (nw || str_nonws s0)%bool; [|destruct se]|]; exact H.
Qed.

(** ** The theorems *)
Theorem error_cause : forall x E fuel id s m, from_str x E fuel id s = OErr m -> Cause x E id (parse_text s) m.
Proof.
  intros x E fuel id s m H. unfold from_str, from_events in H.
  pose proof (outs_source _ _ _ _ _ _ (de_causes x E parse_plain fuel (parse_text s) (parse_plain s) id)) as K.
  rewrite H in K. exact K.
Qed.

Theorem panic_cause : forall x E, defined E -> forall id, nth_error E id <> None ->
  forall fuel s m, from_str x E fuel id s = OPanic m -> Panics x E id (parse_text s) m.
Proof.
  intros x E HE id Hid fuel s m H.
  pose (W := fun m => exists e, m = "called `Result::unwrap()` on an `Err` value: " +++ e).
  assert (HW : W m).
  { apply (events_safe W x E HE) with (id := id) (fuel := fuel) (src := parse_text s); [|exact Hid|apply parse_nested|exact H].
    intros i td vs d l a fl t Htd Hb Hin. specialize (HE i td Htd). rewrite Hb in HE. specialize (HE l a fl t Hin).
    destruct (base_of t); [|exact HE]. intros t0 e _. exists e. reflexivity. }
  unfold from_str, from_events in H.
  pose proof (outs_source _ _ _ _ _ _ (de_causes x E parse_plain fuel (parse_text s) (parse_plain s) id)) as K.
  rewrite H in K. destruct HW as [e ->].
  destruct K as [[K|K]|K]; [exact K| |discriminate K].
  cbn [In] in K. decompose [or] K; try contradiction; discriminate.
Qed.

Theorem lenient_errors : forall x E, lenient x E -> forall fuel id s m, from_str x E fuel id s = OErr m ->
  s_fin (parse_text s) = FErr m \/
  exists n a nm u, In (EStart n a nm) (s_evs (parse_text s)) /\ n_ns n = Some u /\
    m = "bad namespace for " +++ n_local n +++ ", found " +++ u.
Proof.
  intros x E HE fuel id s m H. apply error_cause in H.
  assert (Hl : forall id td fs f, struct_type E id td fs -> In f fs -> lenient_field x f).
  { intros i td fs f [Ht Hb] Hf. destruct (HE i td Ht) as (gs & Hg & Hin). rewrite Hb in Hg. injection Hg as <-. auto. }
  assert (Hen : forall id td vs d, nth_error E id = Some td -> t_body td = DEnum vs d -> False)
    by (intros i td vs d Ht Hb; destruct (HE i td Ht) as (gs & Hg & _); congruence).
  assert (Hpr : forall id td k, nth_error E id = Some td -> t_body td = DPrim k -> False)
    by (intros i td k Ht Hb; destruct (HE i td Ht) as (gs & Hg & _); congruence).
  remember (parse_text s) as src eqn:Hsrc. clear Hsrc. induction H; try (exfalso; eauto; fail); auto.
  - right. exists n, a, nm, u. auto.
  - destruct (Hl _ _ _ _ H H0) as (K & _). congruence.
  - destruct (Hl _ _ _ _ H H0) as (_ & K & _). rewrite (K H1) in H2. injection H2 as <-. discriminate.
  - destruct (Hl _ _ _ _ H H0) as (_ & K & _). rewrite (K H1) in H2. discriminate.
  - destruct (Hl _ _ _ _ H H0) as (_ & _ & K). destruct (K H1 _ H2).
Qed.
