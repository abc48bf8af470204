(** * One deserializer for several values (C77): proofs. *)
From Verif Require Import Str Num Xml XmlText Reader Schema De SpecReader SpecStruct SpecComplete SpecCut SpecTurn
  RunFacts ReaderProofs TreeFacts CompleteProofs CutProofs LocalProofs.
From Coq Require Import Lia.
Open Scope list_scope.

(** The depth comes back to [d] with the last of the events, and not before. *)
Fixpoint back (d dl : nat) (l : list event) : Prop :=
  match l with
  | [] => False
  | e :: r => exists d1, bump dl e = Some d1 /\ (r = [] /\ d1 = d \/ d1 <> d /\ back d d1 r)
  end.

Lemma leave_back : forall d l dl fl rest f, back d dl l -> List.length l <= fl ->
  vrun (leave fl d) (VState dl (l ++ rest) f) = (OOk tt, VState d rest f).
Proof.
  intros d l. induction l as [|e l IH]; intros dl fl rest f H Hl; [destruct H|].
  destruct fl as [|fl]; [cbn in Hl; lia|]. destruct H as (d1 & H1 & H2).
  cbn [leave app]. rewrite vrun_bind. unfold next_. cbn [vrun vnext v_rest v_depth v_fin]. rewrite H1. cbn [of_res vrun v_depth].
  destruct H2 as [[-> ->]|[Hn Hb]].
  - rewrite Nat.eqb_refl. reflexivity.
  - rewrite (proj2 (Nat.eqb_neq _ _) Hn). apply IH; [exact Hb|cbn in Hl; lia].
Qed.

Lemma stays : forall A (p : prog A) v, exists pre, v_rest v = pre ++ v_rest (snd (vrun p v)).
Proof.
  induction p as [a|m|m| |k IH|k IH|k IH]; intros v; cbn [vrun snd]; try (exists []; reflexivity); auto.
  unfold vnext. destruct (v_rest v) as [|e r] eqn:Hv.
  - rewrite <- Hv. apply IH.
  - destruct (bump (v_depth v) e) as [d|]; [|exists [e]; reflexivity].
    destruct (IH (Ok e) (VState d r (v_fin v))) as [pre Hp]. cbn [v_rest] in Hp. exists (e :: pre). cbn [app]. rewrite <- Hp. reflexivity.
Qed.
(** A program that stops in front of the last of them. *)
Lemma back_run : forall A (p : prog A) d dl l f a v1, back d dl l ->
  vrun p (VState dl l f) = (OOk a, v1) -> v_rest v1 <> [] -> back d (v_depth v1) (v_rest v1).
Proof.
  induction p as [a|m|m| |k IH|k IH|k IH]; intros d dl l f b v1 Hb H Hn; cbn [vrun] in H; try discriminate.
  - inversion H; subst. exact Hb.
  - exact (IH _ _ _ _ _ _ _ Hb H Hn).
  - destruct l as [|e l]; [destruct Hb|]. destruct Hb as (d1 & H1 & H2). cbn [vnext v_rest v_depth v_fin] in H.
    rewrite H1 in H. destruct H2 as [[-> ->]|[Hd Hb]]; [|exact (IH _ _ _ _ _ _ _ Hb H Hn)].
    exfalso. apply Hn. pose proof (vrun_empty _ (k (Ok e)) (VState d [] f) eq_refl) as Hs. rewrite H in Hs. exact Hs.
  - exact (IH _ _ _ _ _ _ _ Hb H Hn).
Qed.

Lemma content_back : forall c, content c -> forall d dl l, d < dl -> back d dl l -> back d dl (c ++ l).
Proof.
  intros c Hc. induction Hc as [|e r He Hc IH|n a m l r Hl IHl Hr IHr]; intros d dl t Hd Ht.
  - exact Ht.
  - cbn [app back]. exists dl. split; [destruct e; try destruct He; reflexivity|]. right. split; [lia|]. apply IH; assumption.
  - cbn [app back]. rewrite <- app_assoc. cbn [app]. exists (S dl). split; [reflexivity|]. right. split; [lia|].
    apply IHl; [lia|]. cbn [back]. exists dl. split; [reflexivity|]. right. split; [lia|]. apply IHr; assumption.
Qed.
Lemma element_back : forall e d, one_element e -> back d d e.
Proof.
  intros e d (n & a & m & c & Hc & ->). cbn [back]. exists (S d). split; [reflexivity|]. right. split; [lia|].
  apply content_back; [exact Hc|lia|]. cbn. exists d. auto.
Qed.
Lemma content_vis : forall c, content c -> vis c = c.
Proof.
  intros c Hc. unfold vis. induction Hc as [|e r He Hc IH|n a m l r Hl IHl Hr IHr]; [reflexivity| |].
  - cbn [filter]. replace (visible e) with true by (destruct e; try destruct He; reflexivity). rewrite IH. reflexivity.
  - cbn [filter visible invisible negb]. rewrite filter_app, IHl. cbn [filter visible invisible negb]. rewrite IHr. reflexivity.
Qed.
Lemma element_vis : forall e, one_element e -> vis e = e.
Proof.
  intros e (n & a & m & c & Hc & ->). change (vis (EStart n a m :: c ++ [EEnd n])) with (EStart n a m :: vis (c ++ [EEnd n])).
  unfold vis. rewrite filter_app. fold (vis c). rewrite (content_vis c Hc). reflexivity.
Qed.

Lemma one_left : forall x E fuel id e v d rest f' fl A (K : value -> prog A), own_alone x E fuel id e v -> List.length e <= fl ->
  vrun (let* w := de x E fuel id in let* _ := leave fl d in K w) (VState d (e ++ rest) f') = vrun (K v) (VState d rest f').
Proof.
  intros x E fuel id e v d rest f' fl A K (td & f & Htd & Hf & He & Ha) Hl.
  unfold from_events in Ha. rewrite (proj1 (run_view _ (de x E fuel id) _)), view_init in Ha. cbn [s_evs s_fin] in Ha.
  rewrite (element_vis e He) in Ha.
  destruct (vrun (de x E fuel id) (VState 0 e f)) as [o v1] eqn:Hr. cbn [fst] in Ha. subst o.
  assert (Hn : v_rest v1 <> []).
  { destruct He as (n & a & m & c & Hc & ->). exact (inside _ _ _ _ _ _ _ _ _ _ _ _ Htd Hf Hr). }
  pose proof (back_run _ _ _ _ _ _ _ _ (element_back e 0 He) Hr Hn) as Hb.
  destruct (cut_state _ (de x E fuel id) 0 e f rest f') as [Hx|Hx]; [rewrite Hr in Hx; contradiction|].
  rewrite Hr in Hx. cbn [fst snd] in Hx. pose proof (par_de d x E fuel id _ _ _ Hx) as Hd.
  unfold deeper in Hd. cbn [v_depth v_rest v_fin Nat.add] in Hd.
  rewrite vrun_bind, Hd, vrun_bind.
  assert (Hb' : back d (v_depth v1 + d) (v_rest v1)).
  { clear - Hb. revert Hb. generalize (v_depth v1) as dl. induction (v_rest v1) as [|e l IH]; intros dl H; [exact H|].
    destruct H as (d1 & H1 & H2). exists (d1 + d). split; [destruct e; cbn in *; try (destruct dl; [discriminate|]); inversion H1; reflexivity|].
    destruct H2 as [[H2 ->]|[H2 H3]]; [left; auto|right]. split; [lia|]. apply IH. exact H3. }
  rewrite (leave_back _ _ _ fl _ _ Hb'); [reflexivity|].
  assert (Hlen : List.length (v_rest v1) <= List.length e); [|lia].
  pose proof (stays _ (de x E fuel id) (VState 0 e f)) as (pre & Hpre). rewrite Hr in Hpre. cbn [snd v_rest] in Hpre. rewrite Hpre, app_length. lia.
Qed.

Theorem all_in_turn : forall x E fuel ids es vs, all_alone (own_alone x E fuel) ids es vs ->
  forall d evs rest f fl A (K : list value -> prog A), strip evs = concat es ++ rest -> List.length (concat es) <= fl ->
  fst (run (bind (read_in_turn x E fuel fl ids) K) (DState d (Stream evs f) None)) =
  fst (run (K vs) (DState d (Stream rest f) None)).
Proof.
  intros x E fuel ids es vs H d evs rest f fl A K Hs Hl.
  assert (Hg : vrun (read_in_turn x E fuel fl ids) (VState d (concat es ++ rest) f) = (OOk vs, VState d rest f)).
  { clear Hs evs K A. revert d rest Hl. induction H as [|id e v ids es vs Hp H IH]; intros d rest Hl; [reflexivity|].
    cbn [concat] in Hl. rewrite app_length in Hl. cbn [read_in_turn concat vrun v_depth]. rewrite <- app_assoc.
    rewrite (one_left _ _ _ _ _ _ _ _ _ fl _ (fun w => let* ws := read_in_turn x E fuel fl ids in Ret (w :: ws)) Hp) by lia.
    rewrite vrun_bind, IH by lia. reflexivity. }
  rewrite ReaderProofs.strip_vis in Hs. rewrite (proj1 (run_view _ _ _)), (proj1 (run_view _ (K vs) _)).
  unfold view. cbn [d_depth d_src d_peeked s_evs s_fin app]. rewrite Hs, vrun_bind, Hg.
  assert (Hr : vis rest = rest); [|rewrite Hr; reflexivity].
  assert (Hv : vis (vis evs) = vis evs).
  { unfold vis. clear. induction evs as [|e evs IH]; [reflexivity|]. cbn [filter].
    destruct (visible e) eqn:He; [cbn [filter]; rewrite He, IH; reflexivity|exact IH]. }
  rewrite Hs in Hv. unfold vis in Hv. rewrite filter_app in Hv.
  assert (Hc : filter visible (concat es) = concat es).
  { clear - H. induction H as [|id e v ids es vs (td & f & _ & _ & He & _) H IH]; [reflexivity|].
    cbn [concat]. rewrite filter_app, IH. fold (vis e). rewrite (element_vis e He). reflexivity. }
  rewrite Hc in Hv. apply app_inv_head in Hv. exact Hv.
Qed.
