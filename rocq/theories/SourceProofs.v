(** * Programs on sources all of whose events satisfy a predicate; C47. *)
From Verif Require Import Str Num Xml XmlText Reader Schema De RunFacts SpecReader SpecTree SpecStruct SpecSource TypedProofs TreeFacts.
Open Scope list_scope.

Definition okres (Q : event -> Prop) (r : res event) : Prop := match r with Ok e => Q e | Er _ => True end.

(** Every value the program can return when all events satisfy [Q] satisfies [P]. *)
Inductive may {A} (Q : event -> Prop) (P : A -> Prop) : prog A -> Prop :=
| my_ret : forall a, P a -> may Q P (Ret a)
| my_throw : forall m, may Q P (Throw m)
| my_crash : forall m, may Q P (Crash m)
| my_stuck : may Q P Stuck
| my_peek : forall k, (forall r, okres Q r -> may Q P (k r)) -> may Q P (Peek k)
| my_next : forall k, (forall r, okres Q r -> may Q P (k r)) -> may Q P (Next k)
| my_depth : forall k, (forall r, may Q P (k r)) -> may Q P (Depth k).

Lemma may_bind : forall A B Q (P : A -> Prop) (R : B -> Prop) p (f : A -> prog B),
  may Q P p -> (forall a, P a -> may Q R (f a)) -> may Q R (bind p f).
Proof. intros A B Q P R p f H Hf; induction H; cbn [bind]; auto; constructor; auto. Qed.

Lemma may_attempt : forall A Q (P : A -> Prop) p, may Q P p ->
  may Q (fun r => match r with Ok a => P a | Er _ => True end) (attempt p).
Proof. intros A Q P p H; induction H; cbn [attempt]; constructor; auto; exact I. Qed.

Lemma may_any : forall A Q (p : prog A), may Q (fun _ => True) p.
Proof. induction p; constructor; auto. Qed.

Lemma may_imp : forall A Q (P R : A -> Prop) p, (forall a, P a -> R a) -> may Q P p -> may Q R p.
Proof. intros A Q P R p H L; induction L; constructor; auto. Qed.

Lemma leaves_may : forall A Q (P : A -> Prop) p, leaves P p -> may Q P p.
Proof. intros A Q P p H; induction H; constructor; auto. Qed.

Lemma may_of_res : forall A Q (P : A -> Prop) (r : res A), (forall a, r = Ok a -> P a) -> may Q P (of_res r).
Proof. intros A Q P [a|m] H; constructor. auto. Qed.

Lemma may_peek_ : forall Q, may Q Q peek_.
Proof. intros Q. constructor. intros [e|m] H; constructor. exact H. Qed.
Lemma may_next_ : forall Q, may Q Q next_.
Proof. intros Q. constructor. intros [e|m] H; constructor. exact H. Qed.

Ltac my := first [apply my_throw | apply my_crash | apply my_stuck | apply my_ret | apply my_peek; intros ? ? | apply my_next; intros ? ? | apply my_depth; intro].

Definition holds (Q : event -> Prop) (st : dstate) : Prop :=
  (forall e, In e (s_evs (d_src st)) -> Q e) /\ (forall e, d_peeked st = Some e -> Q e).

Lemma inner_holds : forall (Q : event -> Prop) s r s', Q EEndDoc -> (forall e, In e (s_evs s) -> Q e) ->
  inner_next s = (r, s') -> okres Q r /\ (forall e, In e (s_evs s') -> Q e).
Proof.
  intros Q [evs f] r s' He H Hi. unfold inner_next in Hi. cbn [s_evs s_fin] in *.
  assert (Hg : forall l r0 l', (forall e, In e l -> Q e) -> inner_next_evs l f = (r0, l') -> okres Q r0 /\ (forall e, In e l' -> Q e)).
  { induction l as [|e l IH]; intros r0 l' Hl Hn; cbn [inner_next_evs] in Hn.
    - inversion Hn; subst. split; [destruct f; [exact He|exact I]|intros e []].
    - destruct (invisible e); [apply IH; [intros e' H'; apply Hl; right; exact H'|exact Hn]|].
      inversion Hn; subst. split; [apply Hl; left; reflexivity|]. intros e' H'; apply Hl; right; exact H'. }
  destruct (inner_next_evs evs f) as [r0 l'] eqn:Hn. inversion Hi; subst. apply (Hg evs); assumption.
Qed.

Lemma may_run : forall A (Q : event -> Prop) (P : A -> Prop) p, Q EEndDoc -> may Q P p -> forall st a, holds Q st ->
  fst (run p st) = OOk a -> P a.
Proof.
  intros A Q P p He H; induction H as [a Ha| | | |k Hk IH|k Hk IH|k Hk IH]; intros st b Hh Hr; cbn [run] in Hr; try discriminate.
  - inversion Hr; subst; assumption.
  - destruct (peek st) as [r st'] eqn:Hp. unfold peek in Hp. destruct Hh as [H1 H2].
    destruct (d_peeked st) as [e|] eqn:Hd.
    + inversion Hp; subst. apply (IH (Ok e) (H2 e eq_refl) st'); [split; [exact H1|rewrite Hd; exact H2]|exact Hr].
    + destruct (inner_next (d_src st)) as [[e|m] s] eqn:Hi; destruct (inner_holds _ _ _ _ He H1 Hi) as [Ho Hs]; inversion Hp; subst.
      * eapply (IH (Ok e) Ho); [|exact Hr]. split; [exact Hs|intros e' E'; inversion E'; subst; exact Ho].
      * eapply (IH (Er m) I); [|exact Hr]. split; [exact Hs|intros e' E'; discriminate].
  - unfold next_event in Hr. destruct Hh as [H1 H2].
    assert (Hg : forall r s, okres Q r -> (forall e, In e (s_evs s) -> Q e) ->
      fst (let '(o, st') := match r with
             | Er m => (Some (Er m), DState (d_depth st) s None)
             | Ok e => match bump (d_depth st) e with
                       | Some d => (Some (Ok e), DState d s None)
                       | None => (None, DState (d_depth st) s None)
                       end
             end in match o with Some r => run (k r) st' | None => (OPanic "attempt to subtract with overflow", st') end) = OOk b -> P b).
    { intros r s Ho Hs Hx. destruct r as [e|m].
      - destruct (bump (d_depth st) e); [|discriminate].
        eapply (IH (Ok e) Ho); [|exact Hx]. split; [exact Hs|intros e' E'; discriminate].
      - eapply (IH (Er m) I); [|exact Hx]. split; [exact Hs|intros e' E'; discriminate]. }
    destruct (d_peeked st) as [e|].
    + apply (Hg (Ok e) (d_src st)); [exact (H2 e eq_refl)|exact H1|].
      destruct (bump (d_depth st) e); exact Hr.
    + destruct (inner_next (d_src st)) as [r s] eqn:Hi. destruct (inner_holds _ _ _ _ He H1 Hi) as [Ho Hs].
      apply (Hg r s Ho Hs). destruct r as [e|m]; [destruct (bump (d_depth st) e)|]; exact Hr.
  - eauto.
Qed.

Lemma may_source : forall A (Q : event -> Prop) (P : A -> Prop) p s a, Q EEndDoc -> may Q P p -> (forall e, In e (s_evs s) -> Q e) ->
  fst (run p (d_init s)) = OOk a -> P a.
Proof. intros A Q P p s a He Hm Hs. apply may_run with (Q := Q); auto. split; [exact Hs|intros e E; discriminate]. Qed.

(** ** C47 *)
Section Unnamed.
  Variable x : ext.
  Variable E : env.
  Variable rec : nat -> prog value.
  Variable fuel : nat.
  Variable td : typedef.
  Variable fs : list field.
  Variable i : nat.
  Variable f : field.
  Hypothesis Hi : nth_error fs i = Some f.
  Hypothesis Hfl : flat_field f = false.
  Let ra := t_attrs td.
  Notation Q := (fun e => ~ supplies ra f e).

  (** Slot [i] is untouched. *)
  Definition free (ss : list slot) : Prop :=
    List.length ss = List.length fs /\ nth_error ss i = Some (init_slot (f_ty f)).

  Lemma upd_length : forall A (g : A -> A) l j, List.length (upd j g l) = List.length l.
  Proof. intros A g l; induction l as [|a l IH]; intros [|j]; cbn [upd List.length]; auto. Qed.
  Lemma upd_other : forall A (g : A -> A) l j k, j <> k -> nth_error (upd j g l) k = nth_error l k.
  Proof.
    intros A g l; induction l as [|a l IH]; intros [|j] [|k] H; cbn [upd nth_error]; auto; congruence || idtac.
  Qed.
  Lemma free_upd : forall j g ss, j <> i -> free ss -> free (upd j g ss).
  Proof. intros j g ss H [H1 H2]. split; [rewrite upd_length; exact H1|rewrite upd_other by exact H; exact H2]. Qed.

  Lemma free_init : free (map (fun f => init_slot (f_ty f)) fs).
  Proof. split; [apply map_length|]. rewrite nth_error_map, Hi. reflexivity. Qed.

  Lemma set_text_length : forall t gs ss, List.length (set_text t gs ss) = List.length ss.
  Proof. intros t gs; induction gs as [|g gs IH]; intros [|s ss]; cbn [set_text List.length]; auto. Qed.
  Lemma free_text : forall t ss, ya_text (f_attrs f) = false -> free ss -> free (set_text t fs ss).
  Proof.
    intros t ss Ht. unfold free. clear Hfl. revert ss i Hi. induction fs as [|g gs IH]; intros ss j Hj [H1 H2].
    - destruct j; discriminate.
    - destruct ss as [|s ss]; [discriminate|]. cbn [set_text List.length nth_error] in *. injection H1 as H1. destruct j as [|j].
      + cbn [nth_error] in *. inversion Hj; subst g. inversion H2; subst s. unfold set_text1. rewrite Ht. split; [|reflexivity].
        rewrite set_text_length, H1. reflexivity.
      + cbn [nth_error] in *. destruct (IH ss j Hj (conj H1 H2)) as [K1 K2]. split; [rewrite K1; reflexivity|exact K2].
  Qed.

  Lemma may_load_attr : forall g j attrs ss,
    (j = i -> forall a, In a attrs -> n_local (at_name a) <> field_local g) -> free ss ->
    may Q free (load_attr x E rec g j attrs ss).
  Proof.
    intros g j attrs; induction attrs as [|a attrs IH]; intros ss Hj Hs; cbn [load_attr]; [my; exact Hs|].
    apply may_bind with (P := free); [|intros ss' Hs'; apply IH; [intros; apply Hj; [assumption|right; assumption]|exact Hs']].
    destruct (String.eqb_spec (n_local (at_name a)) (field_local g)) as [He|]; [|my; exact Hs].
    assert (Hn : j <> i) by (intros K; apply (Hj K a (or_introl eq_refl)); exact He).
    assert (Hgen : forall b, may Q free (bind (visit_attr x E rec b (at_value a)) (fun v => Ret (upd j (put_slot v) ss)))).
    { intros b. eapply may_bind; [apply may_any|]. intros v _. my. apply free_upd; assumption. }
    destruct (f_ty g) as [[[]|]|b|b|b]; try (my; apply free_upd; assumption); auto.
    generalize dependent ss. induction (split_ws (at_value a)) as [|t ts IHt]; intros ss Hs Hgen; cbn [visit_attr_items]; [my; exact Hs|].
    eapply may_bind; [apply may_any|]. intros v _. apply IHt; [apply free_upd; assumption|].
    intros b0. eapply may_bind; [apply may_any|]. intros w _. my. apply free_upd; [assumption|]. apply free_upd; assumption.
  Qed.

  Lemma may_load_attrs : forall attrs n nsm, ~ supplies ra f (EStart n attrs nsm) ->
    forall gs j ss, (forall k g, nth_error gs k = Some g -> nth_error fs (j + k) = Some g) -> free ss ->
    may Q free (load_attrs x E rec gs j attrs ss).
  Proof.
    intros attrs n nsm Hq. induction gs as [|g gs IH]; intros j ss Hg Hs; cbn [load_attrs]; [my; exact Hs|].
    apply may_bind with (P := free).
    - destruct (ya_attribute (f_attrs g)) eqn:Ha; [|my; exact Hs]. apply may_load_attr; [|exact Hs].
      intros -> a Hin He. specialize (Hg 0 g eq_refl). rewrite Nat.add_0_r in Hg. rewrite Hg in Hi. inversion Hi; subst g.
      apply Hq. cbn [supplies]. rewrite Ha. exists a. split; [exact Hin|exact He].
    - intros ss' Hs'. apply IH; [|exact Hs']. intros k g' Hk. rewrite Nat.add_succ_comm. apply Hg. exact Hk.
  Qed.

  Lemma may_loop : forall fl ln sd st, free (l_slots st) ->
    may Q (fun st => free (l_slots st)) (struct_loop x E rec fuel fl td fs ln sd st).
  Proof.
    induction fl as [|fl IH]; intros ln sd st Hs; cbn [struct_loop]; [my|].
    eapply may_bind; [apply may_peek_|]. intros e Hq. destruct e as [| | |n attrs nsm|n|t|t|t|t]; try solve [my].
    - destruct (ya_flatten (t_attrs td)); [my; exact Hs|apply IH; exact Hs].
    - apply may_bind with (P := fun st => free (l_slots st)).
      + destruct (_ && _)%bool.
        * eapply may_bind; [apply may_any|]. intros ev _. eapply may_bind; [apply may_any|]. intros u _. my. exact Hs.
        * destruct (find_field (t_attrs td) fs 0 (opt_default "" (n_ns n)) (n_local n)) as [[j g]|] eqn:Hff.
          -- pose proof (find_field_nth fs _ _ _ _ _ _ _ Hff (fun k g H => H)) as Hj.
             assert (Hn : j <> i).
             { intros ->. rewrite Hj in Hi. inversion Hi; subst g. apply Hq. cbn [supplies].
               rewrite find_field_for in Hff. destruct (field_for_spec _ _ _ _ _ Hff) as (_ & Ha & _ & Hl). rewrite Ha. symmetry; exact Hl. }
             apply may_bind with (P := free); [|intros ss Hss; my; exact Hss].
             destruct (fbase (f_ty g)) as [s|id].
             ++ unfold arm_simple. destruct (namespace_check _ _ _ _); [my|]. eapply may_bind; [apply may_any|].
                intros [v|m] _; my; [apply free_upd; assumption|exact Hs].
             ++ unfold arm_struct.
                assert (Hgo : may Q free (Peek (fun r => match r with
                  | Ok (EStart _ _ _) => bind (rec id) (fun v => bind next_ (fun _ => Ret (upd j (put_slot v) (l_slots st))))
                  | _ => Ret (l_slots st) end))).
                { my. destruct r as [[]|]; try (my; exact Hs).
                  eapply may_bind; [apply may_any|]. intros v _. eapply may_bind; [apply may_any|]. intros _ _. my. apply free_upd; assumption. }
                destruct (Z.eqb (l_depth st) 0); [my|]; exact Hgo.
          -- eapply may_bind; [apply may_any|]. intros ev _. eapply may_bind; [apply may_any|]. intros u _.
             eapply may_bind; [apply may_any|]. intros u' _. my. exact Hs.
      + intros st1 Hs1. apply may_bind with (P := free).
        * destruct (Z.eqb (l_depth st1) 0); [|my; exact Hs1]. eapply may_load_attrs; eauto.
        * intros ss Hss. apply IH. exact Hss.
    - my. destruct (_ && _)%bool.
      + eapply may_bind; [apply may_any|]. intros u _. my. exact Hs.
      + eapply may_bind; [apply may_any|]. intros ev _. eapply may_bind; [apply may_any|]. intros u _.
        apply IH. exact Hs.
    - eapply may_bind; [apply may_any|]. intros ev _. eapply may_bind; [apply may_any|]. intros u _.
      apply IH. apply free_text; [|exact Hs]. cbn [supplies] in Hq. destruct (ya_text (f_attrs f)); [exfalso; auto|reflexivity].
  Qed.

  Lemma may_flatten : forall text gs j ss, (forall k g, nth_error gs k = Some g -> nth_error fs (j + k) = Some g) ->
    free ss -> may Q free (visit_flatten rec gs j text ss).
  Proof.
    intros text gs; induction gs as [|g gs IH]; intros j ss Hg Hs; cbn [visit_flatten]; [my; exact Hs|].
    apply may_bind with (P := free).
    - destruct (_ && _)%bool eqn:Hb; [|my; exact Hs].
      assert (Hn : j <> i).
      { intros ->. specialize (Hg 0 g eq_refl). rewrite Nat.add_0_r in Hg. rewrite Hg in Hi. inversion Hi; subst g.
        unfold flat_field in Hfl. rewrite Hb in Hfl. discriminate. }
      destruct (f_ty g) as [[|id]|[|id]|b|b]; try solve [my].
      + eapply may_bind; [apply may_any|]. intros v _. my. apply free_upd; assumption.
      + eapply may_bind; [apply may_any|]. intros r _. my. apply free_upd; assumption.
    - intros ss' Hs'. apply IH; [|exact Hs']. intros k g' Hk. rewrite Nat.add_succ_comm. apply Hg. exact Hk.
  Qed.

  Lemma build_free : forall tn ss vs, free ss -> build x tn fs ss = Ok vs ->
    exists w, nth_error vs i = Some w /\ missing_value x f = Some w.
  Proof.
    intros tn ss vs [H1 H2]. clear Hfl H1. revert ss vs i Hi H2.
    induction fs as [|g gs IH]; intros ss vs j Hj H2 Hb; [destruct j; discriminate|].
    cbn [build] in Hb. destruct ss as [|s ss]; [discriminate|].
    destruct (build1 x tn g s) as [v|] eqn:Hv; [|discriminate].
    destruct (build x tn gs ss) as [ws|] eqn:Hw; [|discriminate]. inversion Hb; subst vs.
    destruct j as [|j]; cbn [nth_error] in *.
    - inversion Hj; subst g. inversion H2; subst s. exists v. split; [reflexivity|].
      unfold build1, init_slot in Hv. unfold missing_value.
      destruct (f_ty f); inversion Hv; try reflexivity. destruct (ya_default (f_attrs f)); inversion Hv; reflexivity.
    - apply (IH ss ws j Hj H2 Hw).
  Qed.

  Lemma may_struct : may Q (fun v => exists vs w, v = VRec vs /\ nth_error vs i = Some w /\ missing_value x f = Some w)
    (de_struct x E rec fuel td fs).
  Proof.
    unfold de_struct. eapply may_bind; [apply may_any|]. intros e _.
    destruct (match e with EStart n _ _ => _ | _ => _ end) as [ln sns]. my.
    destruct (if Nat.eqb r 0 then _ else _); [my|].
    eapply may_bind; [apply may_loop; apply free_init|]. intros st Hst. cbn beta in Hst.
    apply may_bind with (P := free).
    - unfold visit_unused. destruct (l_unused st); try (my; exact Hst). apply may_flatten; auto.
    - intros ss Hss. apply may_bind with (P := fun vs => exists w, nth_error vs i = Some w /\ missing_value x f = Some w).
      + apply may_of_res. intros vs Hvs. eapply build_free; eauto.
      + intros vs (w & H1 & H2). my. eauto.
  Qed.
End Unnamed.

Theorem unnamed_field : forall x E fuel id td fs i f s v, struct_type E id td fs -> nth_error fs i = Some f ->
  flat_field f = false -> (forall e, In e (s_evs s) -> ~ supplies (t_attrs td) f e) ->
  from_events x E fuel id s = OOk v ->
  exists vs w, v = VRec vs /\ nth_error vs i = Some w /\ missing_value x f = Some w.
Proof.
  intros x E fuel id td fs i f s v [Htd Hb] Hi Hf Hs Hr. unfold from_events in Hr.
  refine (may_source _ (fun e => ~ supplies (t_attrs td) f e)
    (fun v => exists vs w, v = VRec vs /\ nth_error vs i = Some w /\ missing_value x f = Some w) _ s v (fun H => H) _ Hs Hr).
  destruct fuel as [|fuel]; cbn [de]; [my|]. unfold de_body. rewrite Htd, Hb. apply may_struct; assumption.
Qed.

Theorem unnamed_required : forall x E fuel id td fs i f s v, struct_type E id td fs -> nth_error fs i = Some f ->
  flat_field f = false -> missing_value x f = None ->
  (forall e, In e (s_evs (parse_text s)) -> ~ supplies (t_attrs td) f e) ->
  from_str x E fuel id s <> OOk v.
Proof.
  intros x E fuel id td fs i f s v Ht Hi Hf Hm Hs Hr.
  destruct (unnamed_field x E fuel id td fs i f (parse_text s) v Ht Hi Hf Hs Hr) as (vs & w & _ & _ & H). congruence.
Qed.

(** Decides [supplies]; for the Examples. *)
Definition suppliesb (ra : yattr) (f : field) (e : event) : bool :=
  match e with
  | EStart n attrs _ =>
      if ya_attribute (f_attrs f) then existsb (fun a => String.eqb (n_local (at_name a)) (field_name f)) attrs
      else label_eqb (elabel n) (flabel ra f)
  | EChars _ => ya_text (f_attrs f)
  | _ => false
  end.
Lemma suppliesb_ok : forall ra f l, forallb (fun e => negb (suppliesb ra f e)) l = true ->
  forall e, In e l -> ~ supplies ra f e.
Proof.
  intros ra f l H e Hin Hs. rewrite forallb_forall in H. specialize (H e Hin). apply negb_true_iff in H.
  destruct e; try contradiction; cbn [supplies suppliesb] in *; [|congruence].
  destruct (ya_attribute (f_attrs f)).
  - destruct Hs as (a & Ha & Hn). assert (K : existsb (fun a => String.eqb (n_local (at_name a)) (field_name f)) attrs = true); [|congruence].
    apply existsb_exists. exists a. split; [exact Ha|]. apply String.eqb_eq. exact Hn.
  - rewrite Hs in H. unfold label_eqb in H. rewrite !String.eqb_refl in H. discriminate.
Qed.
