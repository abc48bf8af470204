(** * Reading Unicode documents: the checks never fail, and the strings of the
    value are Unicode (C72). *)
From Verif Require Import Str Num Xml XmlText Reader Schema De Checked SpecUtf8 SpecStruct WordProofs Utf8Proofs Utf8Text.
Open Scope list_scope.

Definition vvalue (v : value) : Prop := forall s, In s (strings v) -> valid s.
Definition vres (r : res event) : Prop := match r with Ok e => vevent e | Er _ => True end.

(** The two programs do the same as long as they get valid events, and what
    they return satisfies [P]. *)
Inductive agree {A} (P : A -> Prop) : prog A -> prog A -> Prop :=
| ag_ret : forall a, P a -> agree P (Ret a) (Ret a)
| ag_throw : forall m, agree P (Throw m) (Throw m)
| ag_crash : forall m, agree P (Crash m) (Crash m)
| ag_stuck : agree P Stuck Stuck
| ag_peek : forall k k', (forall r, vres r -> agree P (k r) (k' r)) -> agree P (Peek k) (Peek k')
| ag_next : forall k k', (forall r, vres r -> agree P (k r) (k' r)) -> agree P (Next k) (Next k')
| ag_depth : forall k k', (forall d, agree P (k d) (k' d)) -> agree P (Depth k) (Depth k').
Local Hint Constructors agree : core.

Lemma agree_bind : forall A B (P : A -> Prop) (Q : B -> Prop) p q (f g : A -> prog B),
  agree P p q -> (forall a, P a -> agree Q (f a) (g a)) -> agree Q (bind p f) (bind q g).
Proof. intros A B P Q p q f g H Hf. induction H; cbn [bind]; auto. Qed.
Lemma agree_attempt : forall A (P : A -> Prop) p q, agree P p q ->
  agree (fun r => match r with Ok a => P a | Er _ => True end) (attempt p) (attempt q).
Proof. intros A P p q H. induction H; cbn [attempt]; auto. Qed.
Lemma agree_any : forall A (p : prog A), agree (fun _ => True) p p.
Proof. induction p; auto. Qed.
Lemma agree_of_res : forall A (P : A -> Prop) r, (forall a, r = Ok a -> P a) -> agree P (of_res r) (of_res r).
Proof. intros A P [a|m] H; cbn [of_res]; auto. Qed.
Lemma agree_peek_ : agree vevent peek_ peek_.
Proof. apply ag_peek. intros r Hr. apply agree_of_res. intros a ->. exact Hr. Qed.
Lemma agree_next_ : agree vevent next_ next_.
Proof. apply ag_next. intros r Hr. apply agree_of_res. intros a ->. exact Hr. Qed.

Definition vstate (st : dstate) : Prop :=
  (forall e, In e (s_evs (d_src st)) -> vevent e) /\ match d_peeked st with Some e => vevent e | None => True end.
Lemma inner_valid : forall evs f r l, (forall e, In e evs -> vevent e) -> inner_next_evs evs f = (r, l) ->
  vres r /\ forall e, In e l -> vevent e.
Proof.
  induction evs as [|e evs IH]; intros f r l He H; cbn [inner_next_evs] in H.
  - inversion H; subst. split; [destruct f; exact I|intros e []].
  - assert (Hr : forall e', In e' evs -> vevent e') by (intros e' H'; apply He; right; exact H').
    destruct (invisible e); [apply (IH f); assumption|]. inversion H; subst. split; [apply He; left; reflexivity|exact Hr].
Qed.
Lemma src_valid : forall s r s', (forall e, In e (s_evs s) -> vevent e) -> inner_next s = (r, s') ->
  vres r /\ forall e, In e (s_evs s') -> vevent e.
Proof.
  intros s r s' He H. unfold inner_next in H. destruct (inner_next_evs (s_evs s) (s_fin s)) as [r0 l] eqn:Hi. inversion H; subst. apply (inner_valid _ _ _ _ He Hi).
Qed.
Lemma peek_valid : forall st r st', vstate st -> peek st = (r, st') -> vres r /\ vstate st'.
Proof.
  intros st r st' [H1 H2] H. unfold peek in H. destruct (d_peeked st) as [e|] eqn:Hp.
  - inversion H; subst. split; [exact H2|]. split; [exact H1|]. rewrite Hp. exact H2.
  - destruct (inner_next (d_src st)) as [[e|m] s] eqn:Hi; inversion H; subst; destruct (src_valid _ _ _ H1 Hi) as [Hr Hs]; split; auto; split; auto; exact I.
Qed.
Lemma next_valid : forall st o st', vstate st -> next_event st = (o, st') -> match o with Some r => vres r | None => True end /\ vstate st'.
Proof.
  intros st o st' [H1 H2] H. unfold next_event in H.
  destruct (match d_peeked st with Some e => (Ok e, d_src st) | None => inner_next (d_src st) end) as [r s] eqn:Hi.
  assert (vres r /\ forall e, In e (s_evs s) -> vevent e) as [Hr Hs].
  { destruct (d_peeked st); [inversion Hi; subst; split; assumption|apply (src_valid _ _ _ H1 Hi)]. }
  destruct r as [e|m]; [destruct (bump (d_depth st) e)|]; inversion H; subst; split; auto; try exact I; split; auto; exact I.
Qed.
Lemma agree_run : forall A (P : A -> Prop) p q, agree P p q -> forall st, vstate st ->
  run p st = run q st /\ forall a, fst (run q st) = OOk a -> P a.
Proof.
  intros A P p q H. induction H as [a Ha|m|m| |k k' H IH|k k' H IH|k k' H IH]; intros st Hs; cbn [run].
  - split; [reflexivity|]. intros b [= <-]. exact Ha.
  - split; [reflexivity|discriminate].
  - split; [reflexivity|discriminate].
  - split; [reflexivity|discriminate].
  - destruct (peek st) as [r st'] eqn:Hp. destruct (peek_valid _ _ _ Hs Hp) as [Hr Hs']. apply IH; assumption.
  - destruct (next_event st) as [[r|] st'] eqn:Hp; destruct (next_valid _ _ _ Hs Hp) as [Hr Hs']; [apply IH; assumption|]. split; [reflexivity|discriminate].
  - apply IH. exact Hs.
Qed.
Lemma init_state : forall s, valid s -> vstate (d_init (parse_text s)).
Proof. intros s H. split; [|exact I]. intros e He. apply (parse_valid s); assumption. Qed.

(** ** Values *)
Lemma vstr : forall s, valid s -> vvalue (VStr s).
Proof. intros s H t [<-|[]]. exact H. Qed.
Lemma vlist : forall l, (forall v, In v l -> vvalue v) -> forall s, In s (flat_map strings l) -> valid s.
Proof. intros l H s Hs. apply in_flat_map in Hs. destruct Hs as (v & Hv & Hs). exact (H v Hv s Hs). Qed.
Lemma vlist_inv : forall l, (forall s, In s (flat_map strings l) -> valid s) -> forall v, In v l -> vvalue v.
Proof. intros l H v Hv s Hs. apply H. apply in_flat_map. eauto. Qed.
Lemma parse_simple_valid : forall x s t v, valid t -> parse_simple x s t = Ok v -> vvalue v.
Proof.
  intros x s t v Ht H. destruct s; cbn [parse_simple] in H; [inversion H; subst; apply vstr; exact Ht|..];
    match type of H with rmap _ ?r = _ => destruct r; inversion H; subst; intros u [] end.
Qed.
Lemma visit_simple_valid : forall x s t v, valid t -> visit_simple x s t = Ok v -> vvalue v.
Proof.
  intros x s t v Ht H. unfold visit_simple in H. apply (parse_simple_valid x s _ v) in H; [exact H|].
  destruct s; try exact Ht. unfold map_if_bool. destruct (String.eqb t "1"); [reflexivity|]. destruct (String.eqb t "0"); [reflexivity|exact Ht].
Qed.
Definition vslot (s : slot) : Prop := match s with SOne (Some v) => vvalue v | SOne None => True | SMany l => forall v, In v l -> vvalue v end.
Definition vslots (ss : list slot) : Prop := forall s, In s ss -> vslot s.
Lemma upd_valid : forall i g ss, vslots ss -> (forall s, vslot s -> vslot (g s)) -> vslots (upd i g ss).
Proof.
  induction i as [|i IH]; intros g [|s ss] Hs Hg; cbn [upd]; try exact Hs; intros s' [<-|H]; auto.
  - apply Hg, Hs. left. reflexivity.
  - apply Hs. right. exact H.
  - apply Hs. left. reflexivity.
  - revert s' H. apply IH; auto. intros s' H. apply Hs. right. exact H.
Qed.
Lemma put_slot_valid : forall v s, vvalue v -> vslot s -> vslot (put_slot v s).
Proof. intros v [o|l] Hv Hs; cbn [put_slot vslot]; [exact Hv|]. intros w Hw. apply in_app_or in Hw. destruct Hw as [Hw|[<-|[]]]; auto. Qed.
Lemma init_valid : forall fs, vslots (map (fun f => init_slot (f_ty f)) fs).
Proof. intros fs s H. apply in_map_iff in H. destruct H as (f & <- & _). destruct (f_ty f); cbn; auto. intros v []. Qed.
Lemma set_text_valid : forall t fs ss, valid t -> vslots ss -> vslots (set_text t fs ss).
Proof.
  intros t fs. induction fs as [|f fs IH]; intros [|s ss] Ht Hs; cbn [set_text]; try exact Hs. intros s' [<-|H].
  - assert (H0 : vslot s) by (apply Hs; left; reflexivity). unfold set_text1. destruct (ya_text (f_attrs f)); [|exact H0].
    destruct (f_ty f) as [[[]|]|[[]|]|b|b]; try exact H0; [apply vstr; exact Ht|]. destruct (is_empty t); [exact I|apply vstr; exact Ht].
  - revert s' H. apply IH; [exact Ht|]. intros s' H. apply Hs. right. exact H.
Qed.
Lemma build_valid : forall x tn fs ss vs, (forall d, vvalue (x_default x d)) -> vslots ss -> build x tn fs ss = Ok vs -> forall v, In v vs -> vvalue v.
Proof.
  intros x tn fs. induction fs as [|f fs IH]; intros [|s ss] vs Hd Hs H v Hv; cbn [build] in H; try discriminate; try (inversion H; subst; destruct Hv).
  destruct (build1 x tn f s) as [w|] eqn:H1; [|discriminate]. destruct (build x tn fs ss) as [ws|] eqn:H2; [|discriminate]. inversion H; subst.
  destruct Hv as [<-|Hv]; [|apply (IH ss ws); auto; intros s' H'; apply Hs; right; exact H'].
  assert (H0 : vslot s) by (apply Hs; left; reflexivity). unfold build1 in H1. destruct (f_ty f), s as [[u|]|l]; try discriminate; try (inversion H1; subst; try exact H0; try (intros q []); fail).
  - destruct (ya_default (f_attrs f)); inversion H1; subst. apply Hd.
  - inversion H1; subst. intros q Hq. cbn [strings] in Hq. exact (vlist l H0 q Hq).
Qed.

(** ** Collected events *)
Definition vunused (u : uwriter) : Prop := match u with ULive _ evs => forall e, In e evs -> vwevent e | _ => True end.
Lemma as_writer_valid : forall e w, vevent e -> as_writer_event e = Some w -> vwevent w.
Proof. intros [] w H Hw; inversion Hw; subst; exact H. Qed.
Lemma write_unused_valid : forall u e, vunused u -> vevent e -> agree vunused (write_unused u e) (write_unused u e).
Proof.
  intros [| |stack evs] e Hu He; cbn [write_unused]; auto. destruct (as_writer_event e) as [w|] eqn:Hw; [|auto].
  destruct (emit_check stack w) as [st' ok]. apply ag_ret. destruct ok; [|exact I]. intros e' H'. apply in_app_or in H'.
  destruct H' as [H'|[<-|[]]]; [auto|apply (as_writer_valid e); assumption].
Qed.
Lemma skip_valid : forall fuel d u, vunused u -> agree vunused (skip_loop fuel d write_unused u) (skip_loop fuel d write_unused u).
Proof.
  induction fuel as [|fuel IH]; intros d u Hu; cbn [skip_loop]; auto. apply ag_depth. intros cur. destruct (Nat.leb d cur); [|auto].
  eapply agree_bind; [apply agree_next_|]. intros e He. eapply agree_bind; [apply write_unused_valid; assumption|]. intros u' Hu'. apply IH. exact Hu'.
Qed.

Section De.
  Variables (x : ext) (E : env).
  Hypothesis Hx : forall d, vvalue (x_default x d).
  Hypothesis HE : forall td s, In td E -> In s (type_strings td) -> valid s.
  Variables rec rec' : nat -> prog value.
  Hypothesis Hrec : forall id, agree vvalue (rec' id) (rec id).
  Variable fuel : nat.

  Lemma name_valid : forall id td, nth_error E id = Some td -> valid (t_name td).
  Proof. intros id td H. apply (HE td); [eapply nth_error_In; exact H|left; reflexivity]. Qed.
  Lemma from_str_valid : forall id s, valid s -> agree vvalue (from_str_in rec' id s) (from_str_in rec id s).
  Proof.
    intros id s Hs. unfold from_str_in. destruct (agree_run _ _ _ _ (Hrec id) _ (init_state s Hs)) as [-> Hv].
    destruct (fst (run (rec id) (d_init (parse_text s)))); auto.
  Qed.
  Lemma visit_attr_valid : forall b t, valid t -> agree vvalue (visit_attr x E rec' b t) (visit_attr x E rec b t).
  Proof.
    intros [s|id] t Ht; unfold visit_attr.
    - apply agree_of_res. intros v. apply visit_simple_valid. exact Ht.
    - destruct (nth_error E id) as [td|] eqn:Htd; [|auto]. pose proof (name_valid id td Htd) as Hn. apply from_str_valid.
      apply valid_low; [reflexivity|]. apply valid_app; [exact Hn|]. apply valid_low; [reflexivity|]. apply valid_app; [exact Ht|].
      do 2 (apply valid_low; [reflexivity|]). apply valid_app; [exact Hn|reflexivity].
  Qed.
  Lemma items_valid : forall b i items ss, (forall t, In t items -> valid t) -> vslots ss ->
    agree vslots (visit_attr_items x E rec' b i items ss) (visit_attr_items x E rec b i items ss).
  Proof.
    intros b i items. induction items as [|t items IH]; intros ss Ht Hs; cbn [visit_attr_items]; auto.
    eapply agree_bind; [apply visit_attr_valid, Ht; left; reflexivity|]. intros v Hv. apply IH; [intros t' H; apply Ht; right; exact H|].
    apply upd_valid; [exact Hs|]. intros s. apply put_slot_valid. exact Hv.
  Qed.
  Lemma load_attr_valid : forall f i attrs ss, (forall a, In a attrs -> vattr a) -> vslots ss ->
    agree vslots (load_attr x E rec' f i attrs ss) (load_attr x E rec f i attrs ss).
  Proof.
    intros f i attrs. induction attrs as [|a attrs IH]; intros ss Ha Hs; cbn [load_attr]; auto.
    apply agree_bind with (P := vslots); [|intros ss' Hs'; apply IH; [intros b Hb; apply Ha; right; exact Hb|exact Hs']].
    destruct (Ha a (or_introl eq_refl)) as [_ Hv]. destruct (String.eqb _ _); [|auto].
    assert (Hgen : forall b, agree vslots (bind (visit_attr x E rec' b (at_value a)) (fun v => Ret (upd i (put_slot v) ss)))
                                     (bind (visit_attr x E rec b (at_value a)) (fun v => Ret (upd i (put_slot v) ss)))).
    { intros b. eapply agree_bind; [apply visit_attr_valid; exact Hv|]. intros v Hw. apply ag_ret. apply upd_valid; [exact Hs|]. intros s. apply put_slot_valid. exact Hw. }
    destruct (f_ty f) as [b|b|b|b]; try apply Hgen.
    - destruct b as [[]|]; try apply Hgen. apply ag_ret. apply upd_valid; [exact Hs|]. intros s. apply put_slot_valid, vstr. exact Hv.
    - apply items_valid; [|exact Hs]. intros t. apply words_valid. exact Hv.
  Qed.
  Lemma load_attrs_valid : forall fs i attrs ss, (forall a, In a attrs -> vattr a) -> vslots ss ->
    agree vslots (load_attrs x E rec' fs i attrs ss) (load_attrs x E rec fs i attrs ss).
  Proof.
    induction fs as [|f fs IH]; intros i attrs ss Ha Hs; cbn [load_attrs]; auto.
    apply agree_bind with (P := vslots); [destruct (ya_attribute (f_attrs f)); [apply load_attr_valid; assumption|auto]|]. intros ss' Hs'. apply IH; assumption.
  Qed.
  Lemma arm_struct_valid : forall i id dp ss, vslots ss -> agree vslots (arm_struct rec' i id dp ss) (arm_struct rec i id dp ss).
  Proof.
    intros i id dp ss Hs. unfold arm_struct.
    assert (Hgo : agree vslots
      (Peek (fun r => match r with Ok (EStart _ _ _) => bind (rec' id) (fun v => bind next_ (fun _ => Ret (upd i (put_slot v) ss))) | _ => Ret ss end))
      (Peek (fun r => match r with Ok (EStart _ _ _) => bind (rec id) (fun v => bind next_ (fun _ => Ret (upd i (put_slot v) ss))) | _ => Ret ss end))).
    { apply ag_peek. intros [[]|] Hr; auto. eapply agree_bind; [apply Hrec|]. intros v Hv. eapply agree_bind; [apply agree_any|]. intros _ _. apply ag_ret.
      apply upd_valid; [exact Hs|]. intros s'. apply put_slot_valid. exact Hv. }
    destruct (Z.eqb dp 0); [apply ag_next; intros r _|]; exact Hgo.
  Qed.
  Lemma arm_simple_valid : forall ra i f s n ss, vslots ss -> agree vslots (arm_simple x ra i f s n ss) (arm_simple x ra i f s n ss).
  Proof.
    intros ra i f s n ss Hs. unfold arm_simple. destruct (namespace_check _ _ _ _); [auto|].
    eapply agree_bind.
    - apply agree_attempt with (P := vvalue). unfold read_inner_value. apply ag_next. intros [[]|] _; auto.
      eapply agree_bind with (P := vvalue).
      + apply ag_peek. intros [[]|] Hr; auto. eapply agree_bind; [apply agree_any|]. intros _ _. apply agree_of_res. intros v. apply visit_simple_valid. exact Hr.
      + intros v Hv. eapply agree_bind; [apply agree_any|]. intros _ _. auto.
    - intros [v|m] Hr; apply ag_ret; [|exact Hs]. apply upd_valid; [exact Hs|]. intros s'. apply put_slot_valid. exact Hr.
  Qed.

  Definition vl (st : lstate) : Prop := vslots (l_slots st) /\ vunused (l_unused st).
  Lemma struct_loop_valid : forall fs fl td ln sd st, vl st -> agree vl (struct_loop x E rec' fuel fl td fs ln sd st) (struct_loop x E rec fuel fl td fs ln sd st).
  Proof.
    intros fs. induction fl as [|fl IH]; intros td ln sd st [Hs Hu]; cbn [struct_loop]; auto.
    eapply agree_bind; [apply agree_peek_|]. intros e He. destruct e as [| | |n attrs nsm|n|t|t|t|t]; auto.
    - destruct (ya_flatten (t_attrs td)); [apply ag_ret; split; assumption|]. apply IH. split; assumption.
    - apply agree_bind with (P := vl).
      + destruct (_ && _)%bool.
        * eapply agree_bind; [apply agree_next_|]. intros ev Hev. eapply agree_bind; [apply write_unused_valid; assumption|]. intros u Hu'. apply ag_ret. split; assumption.
        * destruct (find_field (t_attrs td) fs 0 (opt_default "" (n_ns n)) (n_local n)) as [[i f]|].
          -- apply agree_bind with (P := vslots); [|intros ss Hss; apply ag_ret; split; assumption].
             destruct (fbase (f_ty f)); [apply arm_simple_valid|apply arm_struct_valid]; exact Hs.
          -- eapply agree_bind; [apply agree_next_|]. intros ev Hev. eapply agree_bind; [apply write_unused_valid; assumption|]. intros u Hu'.
             apply agree_bind with (P := vunused); [|intros u2 Hu2; apply ag_ret; split; assumption].
             destruct (Z.ltb 0 (l_depth st)); [|auto]. unfold skip_element. apply ag_depth. intros d. apply skip_valid. exact Hu'.
      + intros st1 [Hs1 Hu1]. apply agree_bind with (P := vslots).
        * destruct (Z.eqb (l_depth st1) 0); [|auto]. apply load_attrs_valid; [apply He|exact Hs1].
        * intros ss Hss. apply IH. split; assumption.
    - apply ag_depth. intros d. destruct (_ && _)%bool.
      + eapply agree_bind; [apply write_unused_valid; assumption|]. intros u Hu'. apply ag_ret. split; assumption.
      + eapply agree_bind; [apply agree_next_|]. intros ev Hev. eapply agree_bind; [apply write_unused_valid; assumption|]. intros u Hu'. apply IH. split; assumption.
    - eapply agree_bind; [apply agree_next_|]. intros ev Hev. eapply agree_bind; [apply write_unused_valid; assumption|]. intros u Hu'.
      apply IH. split; [apply set_text_valid; assumption|exact Hu'].
  Qed.
  Lemma visit_flatten_valid : forall fs i text ss, valid text -> vslots ss -> agree vslots (visit_flatten rec' fs i text ss) (visit_flatten rec fs i text ss).
  Proof.
    induction fs as [|f fs IH]; intros i text ss Ht Hs; cbn [visit_flatten]; auto. apply agree_bind with (P := vslots); [|intros ss' Hs'; apply IH; assumption].
    destruct (_ && _)%bool; [|auto]. destruct (f_ty f) as [[|id]|[|id]|b|b]; auto.
    - eapply agree_bind; [apply from_str_valid; exact Ht|]. intros v Hv. apply ag_ret. apply upd_valid; [exact Hs|]. intros s _. exact Hv.
    - eapply agree_bind; [apply agree_attempt, from_str_valid; exact Ht|]. intros r Hr. apply ag_ret. apply upd_valid; [exact Hs|]. intros s _. destruct r; [exact Hr|exact I].
  Qed.
  Lemma visit_unused_valid : forall fs u ss, vunused u -> vslots ss -> agree vslots (visit_unused_checked rec' fs u ss) (visit_unused rec fs u ss).
  Proof.
    intros fs [| |st evs] ss Hu Hs; cbn [visit_unused_checked visit_unused]; auto.
    assert (Ht : valid (emit_text default_econf evs)) by (apply text_valid; [exact I|exact Hu]).
    rewrite (proj2 (from_utf8_valid _) Ht). apply visit_flatten_valid; assumption.
  Qed.
  Lemma de_struct_valid : forall td fs, agree vvalue (de_struct_checked x E rec' fuel td fs) (de_struct x E rec fuel td fs).
  Proof.
    intros td fs. unfold de_struct_checked, de_struct. eapply agree_bind; [apply agree_peek_|]. intros e He.
    destruct (match e with EStart n _ _ => _ | _ => _ end) as [ln sns]. apply ag_depth. intros sd. destruct (if Nat.eqb sd 0 then _ else _); [auto|].
    eapply agree_bind; [apply struct_loop_valid|].
    { split; cbn [l_slots l_unused]; [apply init_valid|]. unfold init_unused. destruct (has_flatten fs); [intros ? []|exact I]. }
    intros st [Hs Hu]. eapply agree_bind; [apply visit_unused_valid; assumption|]. intros ss Hss.
    eapply agree_bind; [apply agree_of_res; intros vs Hvs; exact (build_valid _ _ _ _ _ Hx Hss Hvs)|]. intros vs Hvs. apply ag_ret. intros s Hin. exact (vlist vs Hvs s Hin).
  Qed.

  (** ** Enums *)
  Definition vcur (o : option value) : Prop := match o with Some v => vvalue v | None => True end.
  Lemma one_valid : forall i v, vvalue v -> vvalue (VVar i [v]).
  Proof. intros i v H s Hs. cbn [strings flat_map] in Hs. rewrite app_nil_r in Hs. exact (H s Hs). Qed.
  Lemma set_payload_valid : forall t i v cur, vvalue v -> vcur cur -> agree vcur (set_payload t i v cur) (set_payload t i v cur).
  Proof.
    intros t i v cur Hv Hc. unfold set_payload. destruct t as [b|b|b|b]; try (apply ag_ret; apply one_valid; exact Hv).
    destruct cur as [w|].
    - destruct w as [| | | | | | | |j [|w [|]]]; auto; [|destruct w; auto]. destruct w as [| | | | | |l| |]; auto. destruct (Nat.eqb i j); [|auto]. apply ag_ret. apply one_valid.
      intros s Hs. cbn [strings] in Hs. rewrite flat_map_app in Hs. apply in_app_or in Hs. destruct Hs as [Hs|Hs].
      + apply Hc. cbn [strings flat_map]. rewrite app_nil_r. exact Hs.
      + cbn [flat_map] in Hs. rewrite app_nil_r in Hs. exact (Hv s Hs).
    - apply ag_ret. apply one_valid. intros s Hs. cbn [strings flat_map] in Hs. rewrite app_nil_r in Hs. exact (Hv s Hs).
  Qed.
  Lemma enum_arm_valid : forall i b cur, vcur cur -> agree (fun r => vcur (fst r)) (enum_arm x rec' i b cur) (enum_arm x rec i b cur).
  Proof.
    intros i b cur Hc. unfold enum_arm. destruct b as [|fl t|fs]; auto.
    - apply ag_ret. intros s [].
    - destruct (fbase t) as [s|id].
      + eapply agree_bind.
        * unfold read_payload. apply agree_attempt with (P := vvalue). unfold read_inner_value. apply ag_next. intros [[]|] _; auto. eapply agree_bind with (P := vvalue).
          -- assert (Hvu : forall t, valid t -> agree vvalue (visit_unwrap x s t) (visit_unwrap x s t)).
             { intros t0 Ht. unfold visit_unwrap. destruct (parse_simple x s t0) eqn:Hp; auto. apply ag_ret. exact (parse_simple_valid _ _ _ _ Ht Hp). }
             eapply agree_bind; [apply agree_peek_|]. intros e _. destruct e; try (apply Hvu; reflexivity); apply ag_next; intros [[]|] Hr; auto.
          -- intros v Hv. eapply agree_bind; [apply agree_any|]. intros _ _. auto.
        * intros [v|m] Hr; [|auto]. eapply agree_bind; [apply set_payload_valid; eassumption|]. intros c Hcc. auto.
      + eapply agree_bind; [apply Hrec|]. intros v Hv. eapply agree_bind; [apply set_payload_valid; eassumption|]. intros c Hcc. apply ag_next. intros r _. auto.
  Qed.
  Lemma enum_loop_valid : forall vs fl td ln sd cur, vcur cur -> agree vcur (enum_loop x rec' fl td vs ln sd cur) (enum_loop x rec fl td vs ln sd cur).
  Proof.
    intros vs. induction fl as [|fl IH]; intros td ln sd cur Hc; cbn [enum_loop]; auto.
    eapply agree_bind; [apply agree_peek_|]. intros e _. destruct e as [| | |n attrs nsm|n|t|t|t|t]; auto.
    - destruct (ya_flatten (t_attrs td)); auto.
    - eapply agree_bind; [apply agree_any|]. intros nm _. apply agree_bind with (P := fun r => vcur (fst r)).
      + destruct (find_variant vs 0 nm) as [[i b]|]; [apply enum_arm_valid; exact Hc|]. apply ag_next. intros r _. auto.
      + intros [cur1 brk] Hc1. cbn [fst] in Hc1. destruct brk; [auto|]. eapply agree_bind; [apply agree_peek_|]. intros e2 _. destruct e2; auto.
        apply agree_bind with (P := fun r => vcur (fst r)).
        * destruct (find_variant vs 0 s) as [[i b]|]; [apply enum_arm_valid; exact Hc1|auto].
        * intros [cur2 brk2] Hc2. destruct brk2; auto.
    - apply ag_depth. intros d. destruct (_ && _)%bool; auto.
  Qed.
  Lemma de_body_valid : forall id, agree vvalue (de_body_checked x E rec' fuel id) (de_body x E rec fuel id).
  Proof.
    intros id. unfold de_body_checked, de_body. destruct (nth_error E id) as [td|] eqn:Htd; [|auto]. destruct (t_body td) as [fs|vs d|k] eqn:Hb.
    - apply de_struct_valid.
    - unfold de_enum. eapply agree_bind; [apply agree_peek_|]. intros e He. destruct (match e with EStart n _ _ => _ | _ => _ end) as [ln sns].
      apply ag_depth. intros sd. destruct (namespace_check _ _ _ _); [auto|]. eapply agree_bind; [apply enum_loop_valid; exact I|]. intros [v|] Hv; apply ag_ret; [exact Hv|].
      intros s Hs. apply (HE td); [eapply nth_error_In; exact Htd|]. unfold type_strings. right. apply in_or_app. right. rewrite Hb. apply in_or_app. right. exact Hs.
    - unfold de_prim. apply ag_peek. intros [[]|] _; auto. eapply agree_bind; [apply agree_any|]. intros _ _. apply ag_peek. intros r Hr.
      apply agree_of_res. intros v Hv.
      assert (Ht : valid (match r with Ok (EChars t) => t | _ => "" end)) by (destruct r as [[]|]; try reflexivity; exact Hr).
      revert Hv Ht. generalize (match r with Ok (EChars t) => t | _ => "" end). intros t Hv Ht. destruct k as [q|i mask|]; cbn [parse_prim] in Hv.
      + exact (parse_simple_valid _ _ _ _ Ht Hv).
      + destruct (parse_int i t); [|discriminate]. destruct (Z.eqb _ _); inversion Hv; subst. intros u [].
      + destruct (x_uparse x (t_name td) t); inversion Hv; subst. intros u [].
  Qed.
End De.

Lemma de_valid : forall x E, (forall d, vvalue (x_default x d)) -> (forall td s, In td E -> In s (type_strings td) -> valid s) ->
  forall fuel id, agree vvalue (de_checked x E fuel id) (de x E fuel id).
Proof. intros x E Hx HE. induction fuel as [|fuel IH]; intros id; cbn [de_checked de]; auto. apply de_body_valid; auto. Qed.

Lemma value_unicode : forall v, vvalue v <-> unicode_value v.
Proof. intros v. unfold vvalue, unicode_value. split; intros H s Hs; apply valid_unicode, H; exact Hs. Qed.
Lemma unicode_read : forall x E, unicode_types E -> unicode_code x -> forall fuel id s, Unicode s ->
  from_str_checked x E fuel id s = from_str x E fuel id s /\ forall v, from_str x E fuel id s = OOk v -> unicode_value v.
Proof.
  intros x E HE (_ & _ & Hd) fuel id s Hs.
  assert (Ha : agree vvalue (de_checked x E fuel id) (de x E fuel id)).
  { apply de_valid; [intros d; apply value_unicode, Hd|]. intros td t Ht Hin. apply valid_unicode. exact (HE td t Ht Hin). }
  destruct (agree_run _ _ _ _ Ha _ (init_state s (proj2 (valid_unicode s) Hs))) as [H1 H2]. split.
  - unfold from_str_checked, from_str, from_events. rewrite H1. reflexivity.
  - intros v Hv. apply value_unicode. apply H2. exact Hv.
Qed.
