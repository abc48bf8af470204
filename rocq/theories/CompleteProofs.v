(** * A struct is only read from a whole root element (C41): proofs. *)
From Verif Require Import Str Num Xml XmlText Reader Schema De SpecReader SpecTree SpecStruct SpecSafe SpecTerm SpecComplete
  RunFacts ReaderProofs TreeFacts TermProofs.
From Coq Require Import Lia.
Open Scope list_scope.

(** ** What a program leaves unread *)
Lemma vrun_stack : forall A (p : prog A) v st, at_ st v ->
  exists pre st', v_rest v = pre ++ v_rest (snd (vrun p v)) /\ stack_after st pre = Some st' /\
    at_ st' (snd (vrun p v)) /\ v_fin (snd (vrun p v)) = v_fin v.
Proof.
  assert (Hstay : forall v st, at_ st v -> exists pre st', v_rest v = pre ++ v_rest v /\ stack_after st pre = Some st' /\
    at_ st' v /\ v_fin v = v_fin v).
  { intros v st H. exists [], st. repeat split; auto; apply H. }
  induction p as [a|m|m| |k IH|k IH|k IH]; intros v st Hat; cbn [vrun snd]; auto.
  destruct (v_rest v) as [|e r] eqn:Hr.
  - unfold vnext. rewrite Hr. destruct (IH (fin_res (v_fin v)) v st Hat) as (pre & st' & H). rewrite Hr in H. eauto.
  - destruct (next_at st v e r Hat Hr) as (st1 & v1 & Hn & Hr1 & Hat1 & Hst).
    assert (Hf : v_fin v1 = v_fin v).
    { unfold vnext in Hn. rewrite Hr in Hn. destruct (bump (v_depth v) e); [|discriminate]. inversion Hn. reflexivity. }
    rewrite Hn. destruct (IH (Ok e) v1 st1 Hat1) as (pre & st' & H1 & H2 & H3 & H4).
    exists (e :: pre), st'. rewrite Hr1 in H1. rewrite H1 at 1. split; [reflexivity|]. split; [|split; [exact H3|congruence]].
    destruct Hat as [_ He]. rewrite Hr in He.
    destruct e; cbn [stack_after ends_in] in *; try contradiction.
    + subst st1. exact H2.
    + subst st. rewrite name_eqb_same. exact H2.
    + destruct Hst as [-> Hne]. destruct st; [congruence|exact H2].
    + destruct Hst as [-> Hne]. destruct st; [congruence|exact H2].
    + destruct Hst as [-> Hne]. destruct st; [congruence|exact H2].
Qed.

(** ** Closing an element *)
Lemma close : forall k pre n st st', List.length pre <= k -> stack_after (n :: st) pre = Some st' ->
  Forall (fun e => visible e = true) pre ->
  List.length st' <= List.length st ->
  exists l r, pre = l ++ EEnd n :: r /\ content l /\ stack_after st r = Some st' /\ Forall (fun e => visible e = true) r.
Proof.
  induction k as [|k IH]; intros pre n st st' Hk Hs Hv Hl.
  - destruct pre; [|simpl in Hk; lia]. inversion Hs; subst. simpl in Hl. lia.
  - destruct pre as [|e pre]; [inversion Hs; subst; simpl in Hl; lia|].
    inversion Hv as [|? ? He Hv']; subst. cbn [List.length] in Hk.
    destruct e; cbn [stack_after] in Hs; try discriminate.
    + destruct (IH pre n0 (n :: st) st') as (l1 & r1 & -> & C1 & S1 & V1); auto; [lia|simpl; lia|].
      rewrite app_length in Hk. cbn [List.length] in Hk.
      destruct (IH r1 n st st') as (l2 & r2 & -> & C2 & S2 & V2); auto; [lia|].
      exists (EStart n0 attrs ns :: l1 ++ EEnd n0 :: l2), r2. split; [|split; [constructor; assumption|auto]].
      cbn [app]. rewrite <- app_assoc. reflexivity.
    + destruct (name_eqb n0 n) eqn:Hn; [|discriminate]. apply name_eqb_eq in Hn. subst n0.
      exists [], pre. split; [reflexivity|]. split; [constructor|auto].
    + destruct (IH pre n st st') as (l & r & -> & C & S & V); auto; [lia|].
      exists (EChars s :: l), r. split; [reflexivity|]. split; [constructor; simpl; auto|auto].
    + destruct (IH pre n st st') as (l & r & -> & C & S & V); auto; [lia|].
      exists (ECData s :: l), r. split; [reflexivity|]. split; [constructor; simpl; auto|auto].
    + destruct (IH pre n st st') as (l & r & -> & C & S & V); auto; [lia|].
      exists (EWhitespace s :: l), r. split; [reflexivity|]. split; [constructor; simpl; auto|auto].
Qed.

(** ** Where the loop of a struct stops *)
Lemma bind_ok : forall A B (p : prog A) (f : A -> prog B) v b v1,
  vrun (bind p f) v = (OOk b, v1) ->
  exists a v', vrun p v = (OOk a, v') /\ vrun (f a) v' = (OOk b, v1).
Proof.
  intros A B p f v b v1 H. rewrite vrun_bind in H. destruct (vrun p v) as [[a|m|m|] v'] eqn:Hp; try discriminate. eauto.
Qed.

Section LoopExit.
  Variables (x : ext) (E : env) (rec : nat -> prog value) (fuel : nat).

  Lemma loop_exit : forall fl td fs ln sd st v st1 v1,
    vrun (struct_loop x E rec fuel fl td fs ln sd st) v = (OOk st1, v1) ->
    (exists n, vpeek v1 = Ok (EEnd n) /\ v_depth v1 = S sd) \/ vpeek v1 = Ok EEndDoc.
  Proof.
    induction fl as [|fl IH]; intros td fs ln sd st v st1 v1 H; cbn [struct_loop] in H; [discriminate|].
    rewrite vrun_peek_ in H. destruct (vpeek v) as [e|m] eqn:Hp; [|discriminate].
    destruct e; try discriminate.
    - destruct (ya_flatten (t_attrs td)); [|eapply IH; exact H]. inversion H; subst. auto.
    - apply bind_ok in H. destruct H as (s2 & v2 & _ & H). apply bind_ok in H. destruct H as (s3 & v3 & _ & H).
      eapply IH. exact H.
    - cbn [vrun] in H. destruct (_ && _)%bool eqn:Hb.
      + apply andb_prop in Hb. destruct Hb as [_ Hb]. apply Nat.eqb_eq in Hb.
        apply bind_ok in H. destruct H as (u & v2 & Hw & H).
        destruct (quiet_write (l_unused st) (EEnd n) v) as (o & Ho & _). rewrite Ho in Hw. inversion Hw; subst.
        cbn [vrun] in H. inversion H; subst. left. eauto.
      + apply bind_ok in H. destruct H as (s2 & v2 & _ & H). apply bind_ok in H. destruct H as (s3 & v3 & _ & H).
        eapply IH. exact H.
    - apply bind_ok in H. destruct H as (s2 & v2 & _ & H). apply bind_ok in H. destruct H as (s3 & v3 & _ & H).
      eapply IH. exact H.
  Qed.

  Lemma arm_break : forall i b cur v c v1,
    vrun (enum_arm x rec i b cur) v = (OOk (c, true), v1) -> c = Some (VVar i []).
  Proof.
    intros i b cur v c v1 H. destruct b as [|fl t|fs]; cbn [enum_arm] in H; [inversion H; reflexivity| |inversion H].
    destruct (fbase t).
    - apply bind_ok in H. destruct H as (r & v2 & _ & H). destruct r; [|inversion H].
      apply bind_ok in H. destruct H as (r & v3 & _ & H). inversion H.
    - apply bind_ok in H. destruct H as (r & v2 & _ & H). apply bind_ok in H. destruct H as (r' & v3 & _ & H).
      cbn [vrun] in H. destruct (vnext v3) as [[q|] v4]; inversion H.
  Qed.

  Lemma enum_exit : forall fl td vs ln sd cur v o v1,
    vrun (enum_loop x rec fl td vs ln sd cur) v = (OOk o, v1) ->
    (exists i, o = Some (VVar i [])) \/
    (exists n, vpeek v1 = Ok (EEnd n) /\ v_depth v1 = S sd) \/ vpeek v1 = Ok EEndDoc.
  Proof.
    induction fl as [|fl IH]; intros td vs ln sd cur v o v1 H; cbn [enum_loop] in H; [discriminate|].
    rewrite vrun_peek_ in H. destruct (vpeek v) as [e|m] eqn:Hp; [|discriminate].
    destruct e; try discriminate.
    - destruct (ya_flatten (t_attrs td)); [|discriminate]. inversion H; subst. auto.
    - apply bind_ok in H. destruct H as (nm & v2 & _ & H). apply bind_ok in H. destruct H as ([c b] & v3 & Hr & H).
      destruct b.
      + cbn [vrun] in H. inversion H; subst. destruct (find_variant vs 0 nm) as [[i b]|].
        * left. exists i. apply arm_break in Hr. exact Hr.
        * cbn [vrun] in Hr. destruct (vnext v2) as [[q|] v4]; inversion Hr.
      + apply bind_ok in H. destruct H as (e2 & v4 & _ & H). destruct e2; try (eapply IH; exact H).
        apply bind_ok in H. destruct H as ([c2 b2] & v5 & Hr2 & H). destruct b2; [|eapply IH; exact H].
        cbn [vrun] in H. inversion H; subst. destruct (find_variant vs 0 s) as [[i b]|]; [|inversion Hr2].
        left. exists i. apply arm_break in Hr2. exact Hr2.
    - cbn [vrun] in H. destruct (_ && _)%bool eqn:Hb.
      + apply andb_prop in Hb. destruct Hb as [_ Hb]. apply Nat.eqb_eq in Hb. cbn [vrun] in H. inversion H; subst. eauto.
      + cbn [vrun] in H. destruct (vnext v) as [[q|] v4]; [eapply IH; exact H|discriminate].
    - cbn [vrun] in H. destruct (vnext v) as [[q|] v4]; [eapply IH; exact H|discriminate].
  Qed.
End LoopExit.

Lemma vis_forall : forall l, Forall (fun e => visible e = true) (vis l).
Proof. intros l. apply Forall_forall. intros e H. apply filter_In in H. apply H. Qed.

(** A program that started at the root element and stops at the end tag of an
    element at its depth, or at the end of the document. *)
Lemma closed_at : forall A (P : prog A) s a0 v1, parsed_source s ->
  vrun P (view (d_init s)) = (OOk a0, v1) ->
  (exists n, vpeek v1 = Ok (EEnd n) /\ v_depth v1 = 1) \/ vpeek v1 = Ok EEndDoc ->
  root_closed s.
Proof.
  intros A P s a0 v1 Hs HP Hex.
  destruct (parsed_view s Hs) as [Ha Hstart].
  assert (Hm : v_rest (view (d_init s)) = markup s).
  { unfold view, d_init, markup, vis. cbn [d_peeked d_src app v_rest]. apply filter_ext. intros []; reflexivity. }
  assert (Hvis : Forall (fun e => visible e = true) (v_rest (view (d_init s)))).
  { unfold view, d_init. cbn [d_peeked d_src app v_rest]. apply vis_forall. }
  set (v0 := view (d_init s)) in *. clearbody v0.
  destruct (vrun_stack _ P v0 [] Ha) as (pre & st' & H1 & H2 & H3 & H4). rewrite HP in *. cbn [snd] in *.
  destruct Hstart as [(n & a & m & r & Hr)|[Hr [e He]]].
  2:{ exfalso. rewrite Hr in H1. symmetry in H1. apply app_eq_nil in H1. destruct H1 as [_ H1].
      unfold vpeek in Hex. rewrite H1, H4, He in Hex. destruct Hex as [(n & Hx & _)|Hx]; discriminate. }
  assert (Hall : exists all rest, v_rest v0 = all ++ rest /\ stack_after [] all = Some [] /\ all <> []).
  { destruct Hex as [(n' & Hpk & Hdep)|Hpk].
    - destruct H3 as [H3d H3e]. rewrite Hdep in H3d. destruct st' as [|c [|]]; try discriminate.
      unfold vpeek in Hpk. destruct (v_rest v1) as [|e r1] eqn:Hr1; [destruct (v_fin v1); discriminate|].
      inversion Hpk; subst e. cbn [ends_in] in H3e. destruct H3e as [-> _].
      exists (pre ++ [EEnd c]), r1. split; [rewrite H1, <- app_assoc; reflexivity|].
      rewrite stack_after_app, H2. cbn [stack_after]. rewrite name_eqb_same. split; [reflexivity|]. destruct pre; discriminate.
    - destruct H3 as [H3d H3e]. unfold vpeek in Hpk. destruct (v_rest v1) as [|e r1] eqn:Hr1.
      + destruct (v_fin v1) eqn:Hf; [|discriminate]. cbn [ends_in] in H3e. rewrite (H3e eq_refl) in *.
        exists pre, []. split; [exact H1|]. split; [exact H2|]. intros ->. rewrite Hr in H1. discriminate.
      + inversion Hpk; subst e. cbn [ends_in] in H3e. contradiction. }
  destruct Hall as (all & rest & Hall & Hst & Hne).
  rewrite Hr in Hall. rewrite Hr in Hvis.
  destruct all as [|e all]; [congruence|].
  inversion Hall; subst e. cbn [stack_after] in Hst.
  assert (Hva : Forall (fun e => visible e = true) all).
  { inversion Hvis as [|? ? _ Hv]; subst. apply Forall_app in Hv. apply Hv. }
  destruct (close (List.length all) all n [] [] (le_n _) Hst Hva (le_n _)) as (l & r2 & -> & C & _ & _).
  exists n, a, m, l, (r2 ++ rest). split; [|exact C]. rewrite <- Hm, Hr, Hall. cbn [app]. rewrite <- app_assoc. reflexivity.
Qed.

Theorem struct_root_closed : forall x E fuel id td fs s v, struct_type E id td fs -> parsed_source s ->
  from_events x E fuel id s = OOk v -> root_closed s.
Proof.
  intros x E fuel id td fs s v [Htd Hb] Hs H.
  unfold from_events in H. rewrite (proj1 (run_view _ _ _)) in H.
  destruct fuel as [|fuel]; [discriminate|]. cbn [de] in H. unfold de_body in H. rewrite Htd, Hb in H.
  unfold de_struct in H. rewrite vrun_peek_ in H.
  destruct (vpeek _) as [e|]; [|discriminate]. destruct (match e with EStart _ _ _ => _ | _ => _ end) as [ln sns].
  cbn [vrun] in H. change (v_depth (view (d_init s))) with 0 in H.
  destruct (if Nat.eqb 0 0 then _ else _); [discriminate|].
  match type of H with context [vrun (bind ?p ?f) ?v0] => set (P := p) in *; set (F := f) in *;
    destruct (vrun (bind P F) v0) as [o v9] eqn:Hrun end. cbn [fst] in H. subst o.
  apply bind_ok in Hrun. destruct Hrun as (st1 & v1 & HP & _).
  eapply closed_at; [exact Hs|exact HP|]. exact (loop_exit _ _ _ _ _ _ _ _ _ _ _ _ _ HP).
Qed.

Theorem enum_root_closed : forall x E fuel id td vs df s v, nth_error E id = Some td -> t_body td = DEnum vs df ->
  parsed_source s -> from_events x E fuel id s = OOk v -> root_closed s \/ exists i, v = VVar i [].
Proof.
  intros x E fuel id td vs df s v Htd Hb Hs H.
  unfold from_events in H. rewrite (proj1 (run_view _ _ _)) in H.
  destruct fuel as [|fuel]; [discriminate|]. cbn [de] in H. unfold de_body in H. rewrite Htd, Hb in H.
  unfold de_enum in H. rewrite vrun_peek_ in H.
  destruct (vpeek _) as [e|]; [|discriminate]. destruct (match e with EStart _ _ _ => _ | _ => _ end) as [ln sns].
  cbn [vrun] in H. change (v_depth (view (d_init s))) with 0 in H.
  destruct (namespace_check _ _ _ _); [discriminate|].
  match type of H with context [vrun (bind ?p ?f) ?v0] => set (P := p) in *; set (F := f) in *;
    destruct (vrun (bind P F) v0) as [o v9] eqn:Hrun end. cbn [fst] in H. subst o.
  apply bind_ok in Hrun. destruct Hrun as (o & v1 & HP & HF).
  destruct (enum_exit _ _ _ _ _ _ _ _ _ _ _ HP) as [[i ->]|Hx].
  - right. exists i. cbn in HF. inversion HF. reflexivity.
  - left. eapply closed_at; [exact Hs|exact HP|exact Hx].
Qed.

Theorem enum_text_closed : forall x E fuel id td vs df s v, nth_error E id = Some td -> t_body td = DEnum vs df ->
  from_str x E fuel id s = OOk v -> root_closed (parse_text s) \/ exists i, v = VVar i [].
Proof. intros x E fuel id td vs df s v Ht Hb H. eapply enum_root_closed; [exact Ht|exact Hb|apply parse_parsed|exact H]. Qed.

Theorem struct_text_closed : forall x E fuel id td fs s v, struct_type E id td fs ->
  from_str x E fuel id s = OOk v -> root_closed (parse_text s).
Proof. intros x E fuel id td fs s v Ht H. eapply struct_root_closed; [exact Ht|apply parse_parsed|exact H]. Qed.

(** What is closed begins with a start tag and contains its end tag. *)
Lemma closed_has_end : forall s, root_closed s -> exists n, In (EEnd n) (markup s).
Proof. intros s (n & a & m & l & r & H & _). exists n. rewrite H. right. apply in_or_app. right. left. reflexivity. Qed.
