(** * Hand-written implementations: proofs about writing (C70). *)
From Verif Require Import Str Num Xml XmlText Reader Schema De Ser SpecTree SpecText SpecEnc SpecSer EncProofs SpecOwn.
Open Scope list_scope.

Lemma opens_check : forall st e st', emit_check st e = (st', true) -> st' = opens st e.
Proof.
  intros st [n a m|o|s|s] st' H; cbn in *; try (injection H as <-; reflexivity).
  destruct st as [|n st]; [discriminate|].
  destruct o as [n'|]; inversion H; reflexivity.
Qed.

(** Calls that the emitter accepts. *)
Lemma writes_made : forall sched l w,
  (exists w0 w1, w_stack w0 = w_stack w /\ writes l never w0 = (SOk tt, w1)) ->
  let '(made, fine) := calls_made sched (w_calls w) l in
  exists r w', writes l sched w = (r, w') /\
  w_evs w' = w_evs w ++ made /\ w_stack w' = fold_left opens made (w_stack w) /\
  (if fine then r = SOk tt /\ w_calls w' = w_calls w + List.length made
   else (exists e, r = SErr e) /\ w_calls w' = S (w_calls w + List.length made)).
Proof.
  intros sched l. induction l as [|e l IH]; intros w (w0 & w1 & Hst & Hw).
  - cbn [calls_made]. exists (SOk tt), w. cbn. rewrite app_nil_r. repeat split. lia.
  - cbn [writes smap] in Hw. fold (writes l) in Hw. unfold sbind in Hw. unfold write at 1, never at 1 in Hw. rewrite Hst in Hw.
    cbn [writes smap calls_made]. fold (writes l). unfold sbind. unfold write at 1.
    destruct (sched (w_calls w)) eqn:Hs.
    + eexists _, _. split; [reflexivity|]. cbn. rewrite app_nil_r, Nat.add_0_r. repeat split; eauto.
    + destruct (emit_check (w_stack w) e) as [st ok] eqn:Hc. destruct ok; [|discriminate].
      set (w2 := WState (w_evs w ++ [e]) st (S (w_calls w)) (w_skip w) (w_name w)).
      specialize (IH w2). cbn [w_calls w2] in IH. destruct (calls_made sched (S (w_calls w)) l) as [made fine].
      destruct IH as (r & w' & H1 & H2 & H3 & H4).
      { eexists _, w1. split; [|exact Hw]. reflexivity. }
      exists r, w'. split; [exact H1|]. rewrite H2, H3. unfold w2; cbn [w_evs w_stack w_calls fold_left].
      rewrite <- app_assoc, (opens_check _ _ _ Hc). split; [reflexivity|]. split; [reflexivity|].
      destruct fine; destruct H4 as [H4 H5]; (split; [exact H4|]); rewrite H5; cbn; lia.
Qed.

Lemma writes_agree : forall sched h p o, Writes sched h p o <-> agree sched h p (omap (flat_map wtree) o).
Proof.
  intros sched h p o.
  assert (Hm : forall ts w, let '(made, fine) := calls_made sched (w_calls w) (flat_map wtree ts) in
     exists r w', writes (flat_map wtree ts) sched w = (r, w') /\
       w_evs w' = w_evs w ++ made /\ w_stack w' = fold_left opens made (w_stack w) /\
       (if fine then r = SOk tt /\ w_calls w' = w_calls w + List.length made
        else (exists e, r = SErr e) /\ w_calls w' = S (w_calls w + List.length made))).
  { intros ts w. apply writes_made. destruct (writes_forest ts w) as (w2 & H5 & _). exists w, w2. split; [reflexivity|exact H5]. }
  split.
  - intros H w Hw. specialize (H w Hw). destruct o as [ts|]; cbn [omap]; [|exact H].
    specialize (Hm ts w). destruct (calls_made sched (w_calls w) (flat_map wtree ts)) as [made fine].
    destruct H as (r & w' & H1 & H2 & H3 & H4), Hm as (r' & w2 & H5 & H6 & H7 & H8). rewrite H1, H5.
    unfold same, core. cbn [fst snd].
    destruct fine; destruct H4 as [H4 H9], H8 as [H8 H10]; (split; [congruence|]).
    + subst. exact I.
    + destruct H4 as [? ->], H8 as [? ->]. exact I.
  - intros H w Hw. specialize (H w Hw). destruct o as [ts|]; cbn [omap] in H; [|exact H].
    specialize (Hm ts w). destruct (calls_made sched (w_calls w) (flat_map wtree ts)) as [made fine].
    destruct Hm as (r' & w2 & H5 & H6 & H7 & H8). rewrite H5 in H.
    destruct (p sched w) as [r w1]; destruct H as [Hc Hr]; cbn [fst snd] in Hc, Hr.
    unfold core in Hc. injection Hc as Hc1 Hc2 Hc3. exists r, w1. split; [reflexivity|].
    split; [congruence|]. split; [congruence|].
    destruct fine; destruct H8 as [H8 H9]; (split; [|congruence]).
    + subst r'. destruct r as [[]| |]; tauto.
    + destruct H8 as [e ->]. destruct r; try tauto. eauto.
Qed.

Theorem own_written : forall x E own trees sched,
  AllWrite never own trees -> AllWrite sched own trees -> (forall n, sched n = false) \/ reports_errors E -> forall n,
  (forall id v h, Writes sched h (fst (ser_with x E own n) id v) (fst (enc_with x E trees n) id v h)) /\
  (forall id v, Gives (snd (ser_with x E own n) id v) (snd (enc_with x E trees n) id v)).
Proof.
  intros x E own trees sched Hnever Hsched Hcov.
  pose (may := fun s => s = never \/ s = sched).
  assert (Hmay : forall s, may s -> AllWrite s own trees) by (intros s [->| ->]; assumption).
  assert (Hstep : forall (r : sfuns) (q : encs),
    (forall s, may s -> forall id v h, Writes s h (fst r id v) (fst q id v h)) -> (forall id v, Gives (snd r id v) (snd q id v)) ->
    (forall s, may s -> forall id v h, Writes s h (match own id with Some (w, _) => w v | None => fst r id v end)
                             (match trees id with Some (e, _) => e v h | None => fst q id v h end)) /\
    (forall id v, Gives (match own id with Some (_, a) => a v | None => snd r id v end)
                        (match trees id with Some (_, a) => a v | None => snd q id v end))).
  { intros r q H1 H2. split.
    - intros s Hs id v h. pose proof (Hmay s Hs id) as Hall. destruct (own id) as [[w a]|], (trees id) as [[e ea]|]; try (destruct Hall; fail).
      + apply (proj1 Hall).
      + apply H1. exact Hs.
    - intros id v. pose proof (Hnever id) as Hall. destruct (own id) as [[w a]|], (trees id) as [[e ea]|]; try (destruct Hall; fail).
      + apply (proj2 Hall).
      + apply H2. }
  assert (Hall : forall n,
    (forall s, may s -> forall id v h, Writes s h (fst (ser_with x E own n) id v) (fst (enc_with x E trees n) id v h)) /\
    (forall id v, Gives (snd (ser_with x E own n) id v) (snd (enc_with x E trees n) id v))).
  { induction n as [|n [IH1 IH2]]; cbn [ser_with enc_with fst snd].
    - apply (Hstep (fun _ _ => sstuck, fun _ _ => SStuck) (fun _ _ _ => None, fun _ _ => None)); cbn [fst snd].
      + intros s _ id v h w Hw. cbn. discriminate.
      + intros id v a. discriminate.
    - set (r := ser_with x E own n) in *. set (q := enc_with x E trees n) in *.
      apply (Hstep (ser_body x E (fst r) (snd r), attrs_body x E (fst r) (snd r))
                   (enc_type x E (fst q) (snd q), enc_type_attrs x E (fst q) (snd q))); cbn [fst snd].
      + intros s Hs id v h. apply writes_agree.
        apply (body_agrees x E (fst r) (snd r) (fst q) (snd q) may); auto.
        * left; reflexivity.
        * intros s' [->| ->]; [apply covers_never|exact Hcov].
        * intros s' Hs' id' v' h'. apply writes_agree. apply IH1. exact Hs'.
      + intros id v.
        apply (attrs_body_agrees x E (fst r) (snd r) (fst q) (snd q) may); auto.
        * left; reflexivity.
        * intros s' Hs' id' v' h'. apply writes_agree. apply IH1. exact Hs'. }
  intros n. destruct (Hall n) as [H1 H2]. split; [|exact H2]. apply H1. right; reflexivity.
Qed.

Lemma calls_never : forall l n, calls_made (fun _ => false) n l = (l, true).
Proof. induction l as [|e l IH]; intros n; [reflexivity|]. cbn [calls_made]. rewrite IH. reflexivity. Qed.

(** The events of a document. *)
Theorem own_events : forall x E own trees n id v, AllWrite (fun _ => false) own trees ->
  match fst (enc_with x E trees n) id v (Under None) with
  | Some ts => exists w, fst (ser_with x E own n) id v (fun _ => false) w_init = (SOk tt, w) /\ w_evs w = flat_map wtree ts
  | None => fst (fst (ser_with x E own n) id v (fun _ => false) w_init) <> SOk tt
  end.
Proof.
  intros x E own trees n id v H.
  destruct (own_written x E own trees (fun _ => false) H H (or_introl (fun _ => eq_refl)) n) as [H1 _].
  specialize (H1 id v (Under None) w_init eq_refl).
  destruct (fst (enc_with x E trees n) id v (Under None)) as [ts|]; [|exact H1].
  rewrite calls_never in H1. destruct H1 as (r & w' & H2 & H3 & _ & -> & _). exists w'. split; [exact H2|exact H3].
Qed.

Lemma ser_with_none : forall x E n id v,
  fst (ser_with x E (fun _ => None) n) id v = fst (ser_all x E n) id v /\
  snd (ser_with x E (fun _ => None) n) id v = snd (ser_all x E n) id v.
Proof.
  intros x E n.
  assert (H : ser_with x E (fun _ => None) n = ser_all x E n).
  { induction n as [|n IH]; [reflexivity|].
    cbn [ser_with ser_all]. rewrite IH. reflexivity. }
  rewrite H. auto.
Qed.
