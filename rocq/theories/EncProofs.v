(** * The serializer writes the trees of [enc_all] (SpecEnc.v). *)
From Verif Require Import Str Num Xml XmlText Reader Schema Ser SpecTree SpecText TextProofs SpecEnc SpecSer.
Open Scope list_scope.

Definition how_of (w : wstate) : how := if w_skip w then Inside else Under (w_name w).
Definition core (w : wstate) := (w_evs w, w_stack w, w_calls w).

Definition same {A B} (r1 : sres A * wstate) (r2 : sres B * wstate) : Prop :=
  core (snd r1) = core (snd r2) /\
  match fst r1, fst r2 with
  | SOk _, SOk _ | SErr _, SErr _ | SStuck, SStuck => True
  | _, _ => False
  end.

Definition writes (l : list wevent) : sm unit := smap write l.

Definition sagree {A} (r : sres A) (o : option A) : Prop :=
  match o with Some a => r = SOk a | None => forall a, r <> SOk a end.

Lemma same_trans : forall A B C (r1 : sres A * wstate) (r2 : sres B * wstate) (r3 : sres C * wstate),
  same r1 r2 -> same r2 r3 -> same r1 r3.
Proof.
  intros A B C [a w1] [b w2] [c w3] [H1 H2] [H3 H4]. cbn in *. split; cbn; [congruence|].
  destruct a, b, c; tauto.
Qed.
Lemma same_sym : forall A B (r1 : sres A * wstate) (r2 : sres B * wstate), same r1 r2 -> same r2 r1.
Proof. intros A B [a w1] [b w2] [H1 H2]. cbn in *. split; cbn; [congruence|]. destruct a, b; tauto. Qed.

Section Agree.
  Variable sched : nat -> bool.

  Lemma write_core : forall e w w', core w = core w' -> same (write e sched w) (write e sched w').
  Proof.
    intros e [ev st c sk nm] [ev' st' c' sk' nm'] H. unfold core in H. cbn in H. injection H as <- <- <-.
    unfold write. cbn. destruct (sched c); [split; [reflexivity|exact I]|].
    destruct (emit_check st e) as [st1 ok]. destruct ok; split; cbn; auto.
  Qed.

  Lemma sbind_same : forall A B (p p' : sm A) (f f' : A -> sm B) w w',
    same (p sched w) (p' sched w') ->
    (forall a a' w1 w1', p sched w = (SOk a, w1) -> p' sched w' = (SOk a', w1') -> core w1 = core w1' ->
       same (f a sched w1) (f' a' sched w1')) ->
    same (sbind p f sched w) (sbind p' f' sched w').
  Proof.
    intros A B p p' f f' w w' [Hc Hr] Hf. unfold sbind.
    destruct (p sched w) as [a w1] eqn:H1, (p' sched w') as [a' w1'] eqn:H2. cbn in Hc, Hr.
    destruct a, a'; try tauto; try (apply Hf; auto; fail); split; cbn; auto.
  Qed.

  Lemma writes_core : forall l w w', core w = core w' -> same (writes l sched w) (writes l sched w').
  Proof.
    induction l as [|e l IH]; intros w w' H; [split; [exact H|exact I]|].
    cbn [writes smap]. fold (writes l). apply sbind_same; [apply write_core; exact H|]. intros; apply IH; assumption.
  Qed.

  Lemma writes_app : forall l l' w, same (writes (l ++ l') sched w) (sbind (writes l) (fun _ => writes l') sched w).
  Proof.
    induction l as [|e l IH]; intros l' w.
    - cbn [app writes smap]. unfold sbind, sret. apply writes_core; reflexivity.
    - cbn [app writes smap]. fold (writes (l ++ l')) (writes l). unfold sbind at 1 2 3.
      destruct (write e sched w) as [[[]|m|] w1]; [|split; [reflexivity|exact I]|split; [reflexivity|exact I]].
      apply IH.
  Qed.

  Lemma write_flags : forall e w r w', write e sched w = (r, w') -> how_of w' = how_of w.
  Proof.
    intros e [ev st c sk nm] r w' H. unfold write in H. cbn in H. destruct (sched c); [injection H as <- <-; reflexivity|].
    destruct (emit_check st e) as [st1 ok]. destruct ok; injection H as <- <-; reflexivity.
  Qed.

  (** [p], started with the flags [h], writes the events [o] (and never
      succeeds when there are none to write). *)
  Definition agree (h : how) (p : sm unit) (o : option (list wevent)) : Prop :=
    forall w, how_of w = h ->
    match o with
    | Some l => same (p sched w) (writes l sched w)
    | None => fst (p sched w) <> SOk tt
    end.
  Definition agrees (p : sm unit) (o : option (list wevent)) : Prop := forall h, agree h p o.

  Lemma agree_ret : agrees (sret tt) (Some []).
  Proof. intros h w _. split; [reflexivity|exact I]. Qed.
  Lemma agree_stuck : agrees sstuck None.
  Proof. intros h w _. discriminate. Qed.
  Lemma agree_write : forall e, agrees (write e) (Some [e]).
  Proof.
    intros e h w _. cbn [writes smap]. unfold sbind. destruct (write e sched w) as [[[]|m|] w1] eqn:H; split; cbn; auto.
  Qed.

  Lemma agree_seq : forall h p q o1 o2, agree h p o1 -> agrees q o2 ->
    agree h (sbind p (fun _ => q)) (oapp o1 o2).
  Proof.
    intros h p q o1 o2 Hp Hq w Hw. specialize (Hp w Hw). destruct o1 as [l1|]; cbn [oapp].
    - destruct o2 as [l2|].
      + eapply same_trans; [|apply same_sym, writes_app]. apply sbind_same; [exact Hp|].
        intros _ _ w1 w1' _ _ Hc. eapply same_trans; [exact (Hq (how_of w1) w1 eq_refl)|]. apply writes_core; exact Hc.
      + unfold sbind. destruct (p sched w) as [[[]|m|] w1]; cbn; try discriminate. exact (Hq (how_of w1) w1 eq_refl).
    - unfold sbind. destruct (p sched w) as [[[]|m|] w1]; cbn in *; try discriminate. intros; contradiction.
  Qed.

  Lemma agree_cons : forall h e q o, agree h q o -> agree h (sbind (write e) (fun _ => q)) (oapp (Some [e]) o).
  Proof.
    intros h e q o Hq w Hw. unfold sbind. destruct (write e sched w) as [[[]|m|] w1] eqn:H.
    - pose proof (write_flags _ _ _ _ H) as Hf. specialize (Hq w1 ltac:(congruence)).
      destruct o as [l|]; cbn [oapp app]; [|exact Hq]. cbn [writes smap]. unfold sbind at 1. rewrite H. exact Hq.
    - destruct o as [l|]; cbn [oapp app]; [|discriminate]. cbn [writes smap]. unfold sbind. rewrite H. split; [reflexivity|exact I].
    - destruct o as [l|]; cbn [oapp app]; [|discriminate]. cbn [writes smap]. unfold sbind. rewrite H. split; [reflexivity|exact I].
  Qed.

  Lemma agree_elem : forall h n a m q o, agree h q o ->
    agree h (write (WStart n a m) ;;; q ;;; write (WEnd None))
      (match o with Some l => Some (WStart n a m :: l ++ [WEnd None]) | None => None end).
  Proof.
    intros h n a m q o Hq.
    pose proof (agree_cons h (WStart n a m) _ _ (agree_seq h q _ o _ Hq (agree_write (WEnd None)))) as H.
    destruct o; exact H.
  Qed.

  Lemma agree_set : forall o (b : bool) q r, agree (if b then Inside else Under o) q r ->
    agrees (sbind (set_name o) (fun _ => sbind (set_skip b) (fun _ => q))) r.
  Proof.
    intros o b q r Hq h w _. unfold sbind, set_name, set_skip. cbn.
    specialize (Hq (WState (w_evs w) (w_stack w) (w_calls w) b o) eq_refl).
    destruct r as [l|]; [|exact Hq]. eapply same_trans; [exact Hq|]. apply writes_core. reflexivity.
  Qed.
  Lemma agree_set' : forall o (b : bool) q r, agree (if b then Inside else Under o) q r ->
    agrees (sbind (sbind (set_name o) (fun _ => set_skip b)) (fun _ => q)) r.
  Proof. intros o b q r Hq h w Hw. exact (agree_set o b q r Hq h w Hw). Qed.

  Lemma agree_smap : forall A (f : A -> sm unit) (g : A -> option (list wnode)) l,
    (forall a, agrees (f a) (omap (flat_map wtree) (g a))) ->
    agrees (smap f l) (omap (flat_map wtree) (oconcat g l)).
  Proof.
    intros A f g l H. induction l as [|a l IH]; [apply agree_ret|].
    cbn [smap oconcat]. intros h. pose proof (agree_seq h _ _ _ _ (H a h) IH) as Hs.
    destruct (g a), (oconcat g l); cbn [omap oapp] in *; try exact Hs. rewrite flat_map_app. exact Hs.
  Qed.

  Lemma agree_oapp : forall h p q a b, agree h p (omap (flat_map wtree) a) -> agrees q (omap (flat_map wtree) b) ->
    agree h (sbind p (fun _ => q)) (omap (flat_map wtree) (oapp a b)).
  Proof.
    intros h p q a b Hp Hq. pose proof (agree_seq h _ _ _ _ Hp Hq) as Hs.
    destruct a, b; cbn [omap oapp] in *; try exact Hs. rewrite flat_map_app. exact Hs.
  Qed.

  Lemma agree_opt : forall A (o : option A) (f : A -> sm unit) (g : A -> list wnode),
    (forall a, agrees (f a) (Some (flat_map wtree (g a)))) ->
    agrees (sbind (of_opt o) f) (omap (flat_map wtree) (omap g o)).
  Proof.
    intros A [a|] f g H h w Hw; cbn [omap of_opt]; [|discriminate].
    exact (H a h w Hw).
  Qed.

  Lemma agree_text_elem : forall q t, agrees (enclose q t) (Some (flat_map wtree [text_elem q t])).
  Proof.
    intros q t h. pose proof (agree_elem h (qname q) [] [] _ _ (agree_write (WChars t) h)) as H. exact H.
  Qed.

  Lemma agree_with_err : forall h p o m, agree h p o -> agree h (with_err p m) o.
  Proof.
    intros h p o m H w Hw. specialize (H w Hw). unfold with_err. destruct (p sched w) as [[[]|m'|] w1].
    - exact H.
    - destruct o as [l|]; [|discriminate]. destruct (writes l sched w) as [[]]; exact H.
    - exact H.
  Qed.
End Agree.

Lemma fcond_left_out : forall x self v f b, fcond x self v f b = negb (left_out x self v f b).
Proof.
  intros. unfold fcond, left_out. destruct b, (ya_skip (f_attrs f)), (ya_skip_if (f_attrs f)), (ya_default (f_attrs f)); cbn;
    repeat match goal with |- context [x_skip_if ?a ?b ?c ?d] => destruct (x_skip_if a b c d) end; cbn;
    repeat match goal with |- context [value_eqb ?a ?b ?c] => destruct (value_eqb a b c) end; reflexivity.
Qed.

Lemma own_ns_declared : forall ra, own_ns ra = declared ra.
Proof.
  intros ra. unfold own_ns, declared, ns_extend. generalize (@nil (string * string)) as acc.
  induction (ya_namespaces ra) as [|[p u] l IH]; intros acc; [reflexivity|]. cbn [map fold_left fst snd].
  rewrite <- IH. destruct (opt_eqb (ya_default_namespace ra) (Some p)); reflexivity.
Qed.

Definition never : nat -> bool := fun _ => false.

Section Ser.
  Variable x : ext.
  Variable E : env.

  Definition covers (sched : nat -> bool) : Prop := (forall n, sched n = false) \/ reports_errors E.
  Lemma covers_never : covers never. Proof. left. reflexivity. Qed.

  Section Step.
  Variable rec : nat -> value -> sm unit.
  Variable rec_attrs : nat -> value -> sres (list attr * nsmap).
  Variable enc : nat -> value -> how -> option (list wnode).
  Variable enc_attrs : nat -> value -> option (list attr * nsmap).
  (** The write failures considered. *)
  Variable may : (nat -> bool) -> Prop.
  Hypothesis may_never : may never.
  Hypothesis may_covers : forall sched, may sched -> covers sched.
  Hypothesis Hrec : forall sched, may sched -> forall id v h,
    agree sched h (rec id v) (omap (flat_map wtree) (enc id v h)).
  Hypothesis Hattrs : forall id v, sagree (rec_attrs id v) (enc_attrs id v).

  Lemma writes_never : forall l w, (forall l1 e l2, l = l1 ++ e :: l2 -> True) ->
    match writes l never w with (SOk _, w') => w_evs w' = w_evs w ++ l | _ => True end.
  Proof.
    induction l as [|e l IH]; intros w _; [cbn; rewrite app_nil_r; reflexivity|].
    cbn [writes smap]. fold (writes l). unfold sbind. unfold write at 1, never at 1.
    destruct (emit_check (w_stack w) e) as [st ok]. destruct ok; [|exact I].
    specialize (IH (WState (w_evs w ++ [e]) st (S (w_calls w)) (w_skip w) (w_name w)) ltac:(trivial)).
    destruct (writes l never _) as [[[]|m|] w1]; auto. rewrite IH. cbn. rewrite <- app_assoc. reflexivity.
  Qed.

  (** Trees are accepted by the writer. *)
  Lemma writes_tree : forall t w, exists w', writes (wtree t) never w = (SOk tt, w') /\ w_stack w' = w_stack w.
  Proof.
    assert (Happ : forall l l' w w1 w2, writes l never w = (SOk tt, w1) -> writes l' never w1 = (SOk tt, w2) ->
              writes (l ++ l') never w = (SOk tt, w2)).
    { induction l as [|e l IH]; intros l' w w1 w2 H1 H2; [cbn in H1; injection H1 as <-; exact H2|].
      cbn [app writes smap] in *. fold (writes l) in H1. fold (writes (l ++ l')). unfold sbind in *.
      destruct (write e never w) as [[[]|m|] w3]; try discriminate. eapply IH; eauto. }
    assert (Hw : forall e w st, emit_check (w_stack w) e = (st, true) ->
              writes [e] never w = (SOk tt, WState (w_evs w ++ [e]) st (S (w_calls w)) (w_skip w) (w_name w))).
    { intros e w st H. cbn. unfold sbind, write, never. rewrite H. reflexivity. }
    induction t as [s|s|n a m ks IH] using wnode_ind'; intros w.
    - eexists. split; [apply Hw; reflexivity|reflexivity].
    - eexists. split; [apply Hw; reflexivity|reflexivity].
    - cbn [wtree]. set (w1 := WState (w_evs w ++ [WStart n a m]) (n :: w_stack w) (S (w_calls w)) (w_skip w) (w_name w)).
      assert (Hk : exists w2, writes (flat_map wtree ks) never w1 = (SOk tt, w2) /\ w_stack w2 = n :: w_stack w).
      { assert (H0 : w_stack w1 = n :: w_stack w) by reflexivity. revert H0. generalize w1. clear w1.
        induction ks as [|k ks IHk]; intros w1 H0; [eexists; split; [reflexivity|exact H0]|].
        destruct (IH k (or_introl eq_refl) w1) as (w2 & H1 & H2).
        destruct (IHk ltac:(intros; apply IH; right; assumption) w2 ltac:(congruence)) as (w3 & H3 & H4).
        exists w3. split; [|exact H4]. cbn [flat_map]. eapply Happ; eauto. }
      destruct Hk as (w2 & H1 & H2).
      exists (WState (w_evs w2 ++ [WEnd None]) (w_stack w) (S (w_calls w2)) (w_skip w2) (w_name w2)). split; [|reflexivity].
      apply (Happ [WStart n a m] _ w w1); [apply Hw; reflexivity|].
      eapply Happ; [exact H1|]. apply Hw. cbn. rewrite H2. reflexivity.
  Qed.
  Lemma writes_forest : forall ts w, exists w', writes (flat_map wtree ts) never w = (SOk tt, w') /\
    w_stack w' = w_stack w /\ w_evs w' = w_evs w ++ flat_map wtree ts.
  Proof.
    intros ts w. assert (H : exists w', writes (flat_map wtree ts) never w = (SOk tt, w') /\ w_stack w' = w_stack w).
    { revert w. induction ts as [|t ts IH]; intros w; [eexists; split; reflexivity|].
      destruct (writes_tree t w) as (w1 & H1 & H2). destruct (IH w1) as (w2 & H3 & H4).
      pose proof (writes_app never (wtree t) (flat_map wtree ts) w) as Hs. unfold sbind in Hs. rewrite H1, H3 in Hs.
      cbn [flat_map]. destruct (writes (wtree t ++ flat_map wtree ts) never w) as [[[]|m|] w3]; destruct Hs as [Hc Hr];
        cbn in Hc, Hr; try tauto.
      exists w3. split; [reflexivity|]. unfold core in Hc. injection Hc as _ Hc _. congruence. }
    destruct H as (w' & H1 & H2). exists w'. split; [exact H1|]. split; [exact H2|].
    pose proof (writes_never (flat_map wtree ts) w ltac:(trivial)) as H. rewrite H1 in H. exact H.
  Qed.

  Lemma content_agrees : forall id v,
    sagree (to_string_content rec id v)
      (omap (fun ts => emit_text (EConf false None) (flat_map wtree ts)) (enc id v Inside)).
  Proof.
    intros id v. unfold to_string_content.
    pose proof (Hrec never may_never id v Inside (WState [] [] 0 true None) eq_refl) as H.
    destruct (enc id v Inside) as [ts|]; cbn [omap sagree] in *.
    - destruct (writes_forest ts (WState [] [] 0 true None)) as (w' & H1 & H2 & H3). rewrite H1 in H.
      change (fun _ : nat => false) with never. destruct (rec id v never _) as [[[]|m|] w1]; destruct H as [Hc Hr];
        cbn in Hc, Hr; try tauto. injection Hc as Hc _ _. rewrite Hc, H3. reflexivity.
    - change (fun _ : nat => false) with never. destruct (rec id v never _) as [[[]|m|] w1]; cbn in H; try congruence; discriminate.
  Qed.

  Lemma attr_text_agrees : forall b v, sagree (attr_text x rec b v) (attr_show x enc b v).
  Proof.
    intros [s|id] v; cbn [attr_text attr_show]; [|apply content_agrees].
    destruct (show_simple x s v); cbn; [reflexivity|discriminate].
  Qed.

  Lemma attr_of_agrees : forall ra self f v, sagree (attr_of x rec ra self f v) (enc_attr x enc ra self f v).
  Proof.
    intros ra self f v.
    assert (Hone : forall b w, sagree
       (sbind_pure (attr_text x rec b w) (fun t => SOk (if fcond x self v f false then [Attr (qname (field_qname ra f)) t] else [])))
       (omap (fun t => if left_out x self v f false then [] else [Attr (qname (field_qname ra f)) t]) (attr_show x enc b w))).
    { intros b w. pose proof (attr_text_agrees b w) as H. rewrite fcond_left_out.
      destruct (attr_show x enc b w) as [t|]; cbn [omap sagree] in *.
      - rewrite H. cbn. destruct (left_out x self v f false); reflexivity.
      - intros a. destruct (attr_text x rec b w) as [t|m|]; cbn; try discriminate. exfalso; exact (H t eq_refl). }
    unfold attr_of, enc_attr. destruct (f_ty f) as [b|b|b|b].
    - apply Hone.
    - destruct v as [| | | | |[w|]| | |]; cbn [sagree]; try discriminate; [apply Hone|reflexivity].
    - destruct v; cbn; try discriminate. reflexivity.
    - destruct v as [| | | | |[w|]| | |]; cbn; discriminate.
  Qed.

  Lemma tag_agrees : forall ra self fs vs,
    sagree (append_attrs x rec rec_attrs ra self fs vs) (enc_tag x enc enc_attrs ra self fs vs).
  Proof.
    intros ra self. induction fs as [|f fs IH]; intros [|v vs]; cbn [append_attrs enc_tag sagree]; try discriminate; try reflexivity.
    specialize (IH vs). destruct (ya_attribute (f_attrs f)).
    - pose proof (attr_of_agrees ra self f v) as Ha.
      destruct (enc_tag x enc enc_attrs ra self fs vs) as [[[own child] ns]|]; cbn [sagree] in IH.
      + destruct (enc_attr x enc ra self f v) as [l|]; cbn [omap sagree] in *.
        * rewrite Ha. cbn. rewrite IH. reflexivity.
        * intros a. destruct (attr_of x rec ra self f v) as [l|m|]; cbn; try discriminate. exfalso. exact (Ha l eq_refl).
      + cbn [sagree]. intros a. destruct (attr_of x rec ra self f v) as [l|m|]; cbn; try discriminate.
        destruct (append_attrs x rec rec_attrs ra self fs vs) as [r|m|]; cbn; try discriminate. exfalso; exact (IH r eq_refl).
    - assert (Hd : sagree (append_attrs x rec rec_attrs ra self fs vs)
                     (match enc_tag x enc enc_attrs ra self fs vs with None => None | Some (own, child, ns) => Some (own, child, ns) end)).
      { destruct (enc_tag x enc enc_attrs ra self fs vs) as [[[own child] ns]|]; exact IH. }
      destruct (ya_flatten (f_attrs f)); [|exact Hd]. destruct (f_ty f) as [[s|id]|b|b|b]; try exact Hd. clear Hd.
      pose proof (Hattrs id v) as Ha.
      destruct (enc_tag x enc enc_attrs ra self fs vs) as [[[own child] ns]|]; cbn [sagree] in IH.
      + destruct (enc_attrs id v) as [[ca cn]|]; cbn [omap sagree] in *.
        * rewrite Ha. cbn. rewrite IH. reflexivity.
        * intros a. destruct (rec_attrs id v) as [[ca cn]|m|]; cbn; try discriminate. exfalso; exact (Ha _ eq_refl).
      + cbn [sagree]. intros a. destruct (rec_attrs id v) as [[ca cn]|m|]; cbn; try discriminate.
        destruct (append_attrs x rec rec_attrs ra self fs vs) as [r|m|]; cbn; try discriminate. exfalso; exact (IH r eq_refl).
  Qed.

  Lemma start_agrees : forall td v, sagree (type_attrs x rec rec_attrs td v) (enc_start x enc enc_attrs td v).
  Proof.
    intros td v. unfold type_attrs, enc_start. destruct (t_body td) as [fs|vars d|k].
    - destruct v; cbn; try discriminate. apply tag_agrees.
    - destruct v as [| | | | | | | |i l]; cbn; try discriminate. destruct (nth_error vars i); cbn; [|discriminate].
      destruct (ya_tag (t_attrs td)); reflexivity.
    - destruct v; cbn; discriminate.
  Qed.

  Section Content.
  Variable sched : nat -> bool.
  Hypothesis Hs : may sched.

  Lemma one_agrees : forall q s v,
    agrees sched (sbind (of_opt (show_simple x s v)) (fun t => enclose q t)) (omap (flat_map wtree) (enc_simple x q s v)).
  Proof. intros. unfold enc_simple. apply agree_opt. intros t. apply agree_text_elem. Qed.

  Lemma field_agrees : forall ra self f v,
    agrees sched (ser_field x rec ra self f v) (omap (flat_map wtree) (enc_field x enc ra self f v)).
  Proof.
    intros ra self f v. unfold ser_field, enc_field.
    destruct (ya_attribute (f_attrs f)); [apply agree_ret|].
    destruct (ya_text (f_attrs f)).
    { destruct (f_ty f) as [[[]|]|[[]|]|b|b]; try apply agree_stuck;
        destruct v as [t| | | | |[[t| | | | | | | |]|]| | |]; try apply agree_stuck; apply agree_write. }
    rewrite fcond_left_out, negb_involutive. destruct (left_out x self v f true); [apply agree_ret|].
    destruct (ya_cdata (f_attrs f)).
    { destruct (f_ty f) as [[[]|]|b|b|b]; try apply agree_stuck. destruct v; try apply agree_stuck.
      intros h. exact (agree_elem sched h _ _ _ _ _ (agree_write sched (WCData s) h)). }
    assert (Huser : forall id w, agrees sched
      (sbind (if ya_flatten (f_attrs f) then sbind (set_name None) (fun _ => set_skip true)
              else sbind (set_name (Some (field_qname ra f))) (fun _ => set_skip false)) (fun _ => rec id w))
      (omap (flat_map wtree) (enc id w (if ya_flatten (f_attrs f) then Inside else Under (Some (field_qname ra f)))))).
    { intros id w. destruct (ya_flatten (f_attrs f)); apply agree_set'; apply Hrec; exact Hs. }
    destruct (f_ty f) as [[s|id]|[s|id]|[s|id]|[s|id]].
    - apply one_agrees.
    - apply Huser.
    - destruct v as [| | | | |[w|]| | |]; try apply agree_stuck; [apply one_agrees|apply agree_ret].
    - destruct v as [| | | | |[w|]| | |]; try apply agree_stuck; [apply Huser|apply agree_ret].
    - destruct v; try apply agree_stuck. apply agree_smap. intros; apply one_agrees.
    - destruct v; try apply agree_stuck. apply agree_smap. intros; apply Huser.
    - destruct v as [| | | | |[[]|]| | |]; try apply agree_stuck; [|apply agree_ret]. apply agree_smap. intros; apply one_agrees.
    - destruct v as [| | | | |[[]|]| | |]; apply agree_stuck.
  Qed.

  Lemma fields_agrees : forall ra self fs vs,
    agrees sched (ser_fields x rec ra self fs vs) (omap (flat_map wtree) (enc_fields x enc ra self fs vs)).
  Proof.
    intros ra self. induction fs as [|f fs IH]; intros [|v vs]; cbn [ser_fields enc_fields];
      [apply agree_ret|apply agree_stuck|apply agree_stuck|].
    intros h. apply agree_oapp; [apply field_agrees|apply IH].
  Qed.

  Lemma swallow_never : forall t, (forall n, sched n = false) -> agrees sched (swallow (write (WChars t))) (Some [WChars t]).
  Proof.
    intros t Hn h w _. cbn [writes smap]. unfold swallow, sbind, sret, write. rewrite Hn. cbn. split; [reflexivity|exact I].
  Qed.

  (** Items of simple type: only without failing writes. *)
  Lemma item_agrees : forall b v h, (forall n, sched n = false) \/ (forall s, b = BSimple s -> s = SString) ->
    agree sched h (ser_item x rec b v) (omap (flat_map wtree) (enc_item x enc b v h)).
  Proof.
    intros [s|id] v h H; cbn [ser_item enc_item]; [|apply Hrec; exact Hs].
    destruct s; [apply agree_stuck| | |]; destruct H as [H|H]; try (specialize (H _ eq_refl); discriminate);
      (apply agree_opt; intros t0; apply swallow_never; exact H).
  Qed.

  Lemma named_field_agrees : forall ra f v, (forall n, sched n = false) \/ (forall s, f_ty f <> TVec (BSimple s)) ->
    agrees sched (ser_named_field x rec ra f v) (omap (flat_map wtree) (enc_named_field x enc ra f v)).
  Proof.
    intros ra f v Hq. unfold ser_named_field, enc_named_field.
    destruct (f_ty f) as [[s|id]|b|b|b] eqn:Ht.
    - apply one_agrees.
    - apply agree_set. apply Hrec; exact Hs.
    - destruct v; try apply agree_stuck; apply agree_ret.
    - destruct v; try apply agree_stuck. apply agree_smap. intros w. apply agree_set. apply item_agrees.
      destruct Hq as [Hq|Hq]; [left; exact Hq|right]. intros s ->. exfalso. apply (Hq s). reflexivity.
    - destruct v; try apply agree_stuck; apply agree_ret.
  Qed.

  Lemma named_fields_agrees : forall ra fs vs,
    (forall n, sched n = false) \/ (forall f s, In f fs -> f_ty f <> TVec (BSimple s)) ->
    agrees sched (ser_named_fields x rec ra fs vs) (omap (flat_map wtree) (enc_named_fields x enc ra fs vs)).
  Proof.
    intros ra. induction fs as [|f fs IH]; intros [|v vs] H; cbn [ser_named_fields enc_named_fields];
      [apply agree_ret|apply agree_stuck|apply agree_stuck|].
    intros h. apply agree_oapp; [apply named_field_agrees|apply IH].
    - destruct H as [H|H]; [left; exact H|right]. intros; apply H; left; reflexivity.
    - destruct H as [H|H]; [left; exact H|right]. intros; apply H; right; assumption.
  Qed.

  Lemma payload_item_agrees : forall q b v, (forall n, sched n = false) \/ (forall s, b = BSimple s -> s = SString) ->
    agrees sched (write_item x rec q b v) (omap (flat_map wtree) (enc_payload_item x enc q b v)).
  Proof.
    intros q b v H h. unfold write_item, enc_payload_item.
    set (o := match b, v with BSimple SString, VStr t => Some [WTxt t] | _, _ => enc_item x enc b v Inside end).
    set (p := match b, v with
              | BSimple SString, VStr t => write (WChars t)
              | BSimple SString, _ => sstuck
              | _, _ => sbind (set_name None) (fun _ => sbind (set_skip true) (fun _ => ser_item x rec b v))
              end).
    assert (Hp : agrees sched p (omap (flat_map wtree) o)).
    { assert (Hi : agrees sched (sbind (set_name None) (fun _ => sbind (set_skip true) (fun _ => ser_item x rec b v)))
                     (omap (flat_map wtree) (enc_item x enc b v Inside))).
      { apply agree_set. apply item_agrees. exact H. }
      unfold p, o. destruct b as [[]|id]; try exact Hi. destruct v; try apply agree_stuck. apply agree_write. }
    pose proof (agree_elem sched h (qname q) [] [] p _ (Hp h)) as He. unfold start_plain.
    destruct o as [ts|]; cbn [omap] in *; [cbn [flat_map wtree]; rewrite app_nil_r; exact He|exact He].
  Qed.

  Lemma payload_agrees : forall h q fl t v,
    (forall n, sched n = false) \/ (forall s, t = TOpt (BSimple s) \/ t = TVec (BSimple s) -> s = SString) ->
    agree sched h (ser_payload x rec q fl t v) (omap (flat_map wtree) (enc_payload x enc h q fl t v)).
  Proof.
    intros h q fl t v H. unfold ser_payload, enc_payload. destruct t as [[s|id]|b|b|b].
    - apply one_agrees.
    - destruct fl; [apply Hrec; exact Hs|]. apply payload_item_agrees. right; discriminate.
    - destruct v as [| | | | |[w|]| | |]; try apply agree_stuck; [|apply agree_ret]. apply payload_item_agrees.
      destruct H as [H|H]; [left; exact H|right]. intros s ->. apply H. left; reflexivity.
    - destruct v; try apply agree_stuck. apply agree_smap. intros w. apply payload_item_agrees.
      destruct H as [H|H]; [left; exact H|right]. intros s ->. apply H. right; reflexivity.
    - destruct v as [| | | | |[w|]| | |]; apply agree_stuck.
  Qed.

  Lemma variant_agrees : forall h ra vr l, (forall n, sched n = false) \/ variant_reports vr ->
    agree sched h (ser_variant x rec ra vr l) (omap (flat_map wtree) (enc_variant x enc h ra vr l)).
  Proof.
    intros h ra vr l H. unfold ser_variant, enc_variant, variant_reports in *. destruct (v_body vr) as [|fl t|fs].
    - destruct l; [|apply agree_stuck]. destruct (ya_tag ra); [apply agree_ret|apply agree_write].
    - destruct l as [|v [|w l]]; try apply agree_stuck. apply payload_agrees. exact H.
    - apply named_fields_agrees. destruct H as [H|H]; [left; exact H|right; exact H].
  Qed.

  Lemma inspector_agrees : forall h id td v, nth_error E id = Some td ->
    agree sched h (inspector x rec td v) (omap (flat_map wtree) (enc_content x enc h td v)).
  Proof.
    intros h id td v Htd. unfold inspector, enc_content. destruct (t_body td) as [fs|vars d|k] eqn:Hb.
    - destruct v; try apply agree_stuck. apply fields_agrees.
    - destruct v as [| | | | | | | |i l]; try apply agree_stuck. destruct (nth_error vars i) as [vr|] eqn:Hv; [|apply agree_stuck].
      apply variant_agrees. destruct (may_covers sched Hs) as [Hn|Hr]; [left; exact Hn|right].
      apply (Hr id td vars d Htd Hb vr). apply nth_error_In in Hv. exact Hv.
    - destruct v; apply agree_stuck.
  Qed.

  Lemma agree_get : forall h (f : bool -> sm unit) o, agree sched h (f (match h with Inside => true | Under _ => false end)) o ->
    agree sched h (sbind get_skip f) o.
  Proof.
    intros h f o H w Hw. specialize (H w Hw). unfold sbind, get_skip. unfold how_of in Hw.
    destruct (w_skip w); subst h; exact H.
  Qed.
  Lemma agree_get_name : forall nm (f : option string -> sm unit) o, agree sched (Under nm) (f nm) o ->
    agree sched (Under nm) (sbind get_name f) o.
  Proof.
    intros nm f o H w Hw. specialize (H w Hw). unfold sbind, get_name. unfold how_of in Hw.
    destruct (w_skip w); [discriminate|]. injection Hw as ->. exact H.
  Qed.
  Lemma agree_any_name : forall h (f : option string -> sm unit) o, (forall nm, (forall o', h = Under o' -> nm = o') -> agree sched h (f nm) o) ->
    agree sched h (sbind get_name f) o.
  Proof.
    intros h f o H w Hw. unfold sbind, get_name. apply (H (w_name w)); [|exact Hw].
    intros o' ->. unfold how_of in Hw. destruct (w_skip w); [discriminate|]. injection Hw as ->. reflexivity.
  Qed.

  Lemma agree_unit_r : forall h p o, agree sched h p o -> agree sched h (sbind p (fun _ => sret tt)) o.
  Proof.
    intros h p o H. pose proof (agree_seq sched h p _ o _ H (agree_ret sched)) as Hq.
    destruct o as [l|]; cbn [oapp] in Hq; [rewrite app_nil_r in Hq|]; exact Hq.
  Qed.

  Lemma derived_agrees : forall h id td v, nth_error E id = Some td ->
    agree sched h (ser_derived x rec rec_attrs td v)
      (omap (flat_map wtree)
        (match h with
         | Inside => enc_content x enc h td v
         | Under o =>
             if ya_flatten (t_attrs td) then enc_content x enc h td v
             else match enc_start x enc enc_attrs td v, enc_content x enc h td v with
                  | Some (own, child, ns), Some ks =>
                      Some [WElem (qname (opt_default (ser_root td) o)) (own ++ child)
                                  (ns_extend (declared (t_attrs td)) ns) ks]
                  | _, _ => None
                  end
         end)).
  Proof.
    intros h id td v Htd. pose proof (inspector_agrees h id td v Htd) as Hi.
    unfold ser_derived. apply agree_get.
    destruct h as [|nm].
    - rewrite andb_false_r. intros w Hw. pose proof (agree_unit_r _ _ _ Hi w Hw) as H.
      exact H.
    - rewrite andb_true_r. destruct (ya_flatten (t_attrs td)); cbn [negb].
      { exact (agree_unit_r _ _ _ Hi). }
      intros w Hw.
      assert (Hn : w_name w = nm). { unfold how_of in Hw. destruct (w_skip w); [discriminate|]. injection Hw as ->; reflexivity. }
      pose proof (start_agrees td v) as Ha. rewrite own_ns_declared.
      destruct (enc_start x enc enc_attrs td v) as [[[own child] ns]|]; cbn [sagree] in Ha.
      + pose proof (agree_elem sched _ (qname (opt_default (ser_root td) nm)) (own ++ child)
                      (ns_extend (declared (t_attrs td)) ns) _ _ Hi w Hw) as He.
        match goal with |- match _ with Some _ => same ?p _ | None => _ end =>
          assert (Heq : p = (write (WStart (qname (opt_default (ser_root td) nm)) (own ++ child)
                      (ns_extend (declared (t_attrs td)) ns)) ;;; inspector x rec td v ;;; write (WEnd None)) sched w) end.
        { unfold sbind, get_name, slift. cbn [fst snd]. rewrite Hn, Ha. reflexivity. }
        rewrite Heq. destruct (enc_content x enc (Under nm) td v) as [ks|]; cbn [omap] in *.
        * cbn [flat_map wtree]. rewrite app_nil_r. exact He.
        * exact He.
      + cbn [omap]. unfold sbind, get_name, slift. destruct (type_attrs x rec rec_attrs td v) as [r|m|]; cbn; try discriminate.
        exfalso; exact (Ha r eq_refl).
  Qed.

  Lemma prim_agrees : forall h td k v,
    agree sched h (ser_prim x td k v)
      (omap (flat_map wtree)
         (match h with
          | Inside => omap (fun t => [WTxt t]) (show_prim x (t_name td) k v)
          | Under o => omap (fun t => [text_elem (opt_default (t_name td) o) t]) (show_prim x (t_name td) k v)
          end)).
  Proof.
    intros h td k v. unfold ser_prim. apply agree_any_name. intros nm Hnm. apply agree_get. destruct h as [|o].
    - change (agree sched Inside
        (sbind (of_opt (show_prim x (t_name td) k v)) (fun t =>
           sbind (with_err (write (WChars t)) ("Element value " +++ quoted (opt_default (t_name td) nm) +++ " write failed")) (fun _ => sret tt)))
        (omap (flat_map wtree) (omap (fun t => [WTxt t]) (show_prim x (t_name td) k v)))).
      apply agree_opt. intros t h'. apply agree_unit_r. apply agree_with_err. apply agree_write.
    - rewrite (Hnm o eq_refl). set (q := opt_default (t_name td) o).
      destruct (show_prim x (t_name td) k v) as [t|]; cbn [omap].
      + pose proof (agree_seq sched (Under o) _ _ _ _ (agree_with_err sched (Under o) _ _ ("Start element " +++ quoted q +++ " write failed") (agree_write sched (start_plain q) (Under o)))
          (fun h => agree_seq sched h _ _ _ _ (agree_with_err sched h _ _ ("Element value " +++ quoted q +++ " write failed") (agree_write sched (WChars t) h))
            (fun h => agree_with_err sched h _ _ ("End element " +++ quoted q +++ " write failed") (agree_write sched (WEnd None) h)))) as H.
        exact H.
      + intros w Hw. unfold sbind. destruct (with_err (write (start_plain q)) _ sched w) as [[[]|m|] w1]; cbn; discriminate.
  Qed.
  End Content.

  Lemma body_agrees : forall sched, may sched -> forall id v h,
    agree sched h (ser_body x E rec rec_attrs id v) (omap (flat_map wtree) (enc_type x E enc enc_attrs id v h)).
  Proof.
    intros sched Hs id v h. unfold ser_body, enc_type. destruct (nth_error E id) as [td|] eqn:Htd; [|apply agree_stuck].
    pose proof (derived_agrees sched Hs h id td v Htd) as Hd.
    destruct (t_body td) as [fs|vars d|k] eqn:Hb; try (destruct h; exact Hd).
    pose proof (prim_agrees sched h td k v) as Hp. destruct h; exact Hp.
  Qed.

  Lemma attrs_body_agrees : forall id v, sagree (attrs_body x E rec rec_attrs id v) (enc_type_attrs x E enc enc_attrs id v).
  Proof.
    intros id v. unfold attrs_body, enc_type_attrs. destruct (nth_error E id) as [td|]; [|discriminate].
    assert (Hd : sagree (sbind_pure (type_attrs x rec rec_attrs td v) (fun '(own, child, cns) =>
                   SOk ((own ++ child)%list, ns_extend (own_ns (t_attrs td)) cns)))
               (omap (fun '(own, child, ns) => (own ++ child, ns_extend (declared (t_attrs td)) ns)) (enc_start x enc enc_attrs td v))).
    { pose proof (start_agrees td v) as Ha. destruct (enc_start x enc enc_attrs td v) as [[[own child] ns]|]; cbn [sagree omap] in *.
      - rewrite Ha. cbn. rewrite own_ns_declared. reflexivity.
      - intros a. destruct (type_attrs x rec rec_attrs td v) as [r|m|]; cbn; try discriminate. exfalso; exact (Ha r eq_refl). }
    destruct (t_body td); try exact Hd. reflexivity.
  Qed.
  End Step.

  Theorem ser_all_agrees : forall n,
    (forall sched, covers sched -> forall id v h,
       agree sched h (fst (ser_all x E n) id v) (omap (flat_map wtree) (fst (enc_all x E n) id v h))) /\
    (forall id v, sagree (snd (ser_all x E n) id v) (snd (enc_all x E n) id v)).
  Proof.
    induction n as [|n [IH1 IH2]]; cbn [ser_all enc_all fst snd].
    - split; [intros; apply agree_stuck|intros; discriminate].
    - split.
      + intros sched Hs. apply (body_agrees _ _ _ _ covers covers_never (fun _ H => H) IH1 IH2). exact Hs.
      + apply (attrs_body_agrees _ _ _ _ covers covers_never IH1 IH2).
  Qed.
End Ser.

Lemma vdepth_height : forall v, vdepth v = height v.
Proof.
  fix IH 1. intros [s|b|z|z|z|[w|]|l|l|i l]; try reflexivity; cbn [vdepth height]; f_equal; try apply IH;
    induction l as [|a l IHl]; cbn [map list_max fold_right]; try reflexivity; rewrite IH; f_equal; exact IHl.
Qed.

Theorem ser_agrees : forall x E sched, covers E sched -> forall id v h,
  agree sched h (ser x E id v) (omap (flat_map wtree) (encode x E id v h)).
Proof.
  intros x E sched Hs id v h. unfold ser, encode. rewrite vdepth_height. apply ser_all_agrees. exact Hs.
Qed.

(** The events written for a value are those of its trees. *)
Theorem ser_events_encode : forall x E id v,
  match encode x E id v (Under None) with
  | Some ts => ser_events x E id v = SOk (flat_map wtree ts)
  | None => forall l, ser_events x E id v <> SOk l
  end.
Proof.
  intros x E id v. unfold ser_events. pose proof (ser_agrees x E never (covers_never E) id v (Under None) w_init eq_refl) as H.
  change (fun _ : nat => false) with never.
  destruct (encode x E id v (Under None)) as [ts|]; cbn [omap] in H.
  - destruct (writes_forest ts w_init) as (w' & H1 & _ & H3). rewrite H1 in H.
    destruct (ser x E id v never w_init) as [[[]|m|] w1]; destruct H as [Hc Hr]; cbn in Hc, Hr; try tauto.
    injection Hc as Hc _ _. rewrite Hc, H3. reflexivity.
  - intros l. destruct (ser x E id v never w_init) as [[[]|m|] w1]; cbn in H; try congruence; discriminate.
Qed.
