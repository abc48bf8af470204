(** * Several documents in one text (C77): proofs. *)
From Verif Require Import Str Num Xml XmlText Reader Schema De SpecReader SpecTree SpecComplete SpecXml SpecTurn
  RunFacts ReaderProofs PropertiesReader IndentProofs TextProofs GrammarProofs DenoteProofs TurnProofs.
From Coq Require Import Lia.
Open Scope list_scope.

(** One element more, outside of all elements. *)
Lemma element_step : forall t e, element t e -> forall p q, waits p -> like (rest p) q -> calm q -> p_stack q = [] ->
  calm (absorb t q) -> level q (absorb t q) -> waits (prun p e) /\ like (rest (prun p e)) (absorb t q).
Proof.
  intros t e He p q Wp Lp Hq Hs Hc Hv.
  destruct (proj1 tree_ok t e He) as (r & -> & Hr).
  cbn [prun]. destruct (waits_open p Wp) as (b & Hb & Ho). rewrite Ho.
  pose proof (Hr q b [] Hq (tn_none b Hb) (fun _ => eq_refl)) as Hr0. cbn [absorbs] in Hr0.
  assert (Lr : like (prun (loaded (rest p) MTagOpen b) r) (absorb t q)).
  { eapply like_trans; [|exact Hr0]. apply like_run. left.
    destruct Lp as [(_ & L2 & L3 & L4 & L5 & _ & _ & _ & L9)|[(m & _ & Hm) _]].
    - unfold loaded. repeat split; cbn; try assumption. apply ml_same.
    - destruct Hq as [Hq _]. rewrite Hq in Hm. discriminate Hm. }
  assert (Hw : waits (absorb t q)).
  { destruct Hc as (A & B & C & D), Hv as (V & _). repeat split; [exact A|rewrite <- V; exact Hs|rewrite B; constructor|rewrite C; constructor|exact D]. }
  destruct (rest_like _ _ Lr Hw) as [W L]. split; [exact W|]. eapply like_trans; [exact L|].
  destruct (absorb t q) as [mo o st nm ns rw bf nw se], Hc as (A & B & C & D). cbn in A, B, C, D. subst. apply like_refl.
Qed.

Lemma elements_step : forall ts s, elements ts s -> forall ns, Forall2 (denotes no_scope) ts ns ->
  forall p q, waits p -> like (rest p) q -> calm q -> p_stack q = [] -> (forall k, nss_get (p_nss q) k = None) ->
  waits (prun p s) /\ like (rest (prun p s)) (absorbs ts q) /\ built q (absorbs ts q) (flat_map flat ns).
Proof.
  intros ts s H. induction H as [|t e m ts s He Hm H IH]; intros ns Hn p q Wp Lp Hq Hs Hk.
  - inversion Hn; subst. cbn [prun absorbs flat_map]. split; [exact Wp|]. split; [exact Lp|].
    split; [exact Hq|]. split; [repeat split|]. rewrite app_nil_r. reflexivity.
  - inversion Hn as [|? n ? ns' Hn1 Hn2]; subst. cbn [absorbs flat_map].
    destruct (denotes_built t no_scope n Hn1 q Hq Hk) as (C & V & O).
    destruct (element_step t e He p q Wp Lp Hq Hs C V) as [W L].
    rewrite !prun_app. destruct (misc_run m Hm _ W) as [W' L']. pose proof V as (V1 & V2 & V3).
    destruct (IH ns' Hn2 (prun (prun p e) m) (absorb t q) W') as (W2 & L2 & C2 & (X1 & X2 & X3) & O2).
    + eapply like_trans; [exact L'|exact L].
    + exact C.
    + rewrite <- V1. exact Hs.
    + intros k. rewrite <- V3. apply Hk.
    + split; [exact W2|]. split; [exact L2|]. split; [exact C2|]. split; [repeat split; congruence|]. rewrite O2, O, app_assoc. reflexivity.
Qed.

Lemma several_delivered : forall ts s ns, several_documents ts s -> Forall2 (denotes no_scope) ts ns ->
  strip (s_evs (parse_text s)) = flat_map flat ns.
Proof.
  intros ts s ns (d & m & y & r & Hd & Hm & Hy & Hr & ->) Hn. unfold parse_text.
  rewrite prun_app. destruct (declaration_run d Hd) as [Wd Ld].
  rewrite prun_app. destruct (misc_run m Hm _ Wd) as [W1 L1].
  rewrite prun_app. destruct (doctype_run y Hy _ W1 (like_unseen _ (like_trans _ _ _ L1 Ld))) as [Wy Ly].
  assert (Lp : like (rest (prun (prun (prun p0 d) m) y)) p0) by (eapply like_trans; [exact Ly|eapply like_trans; [exact L1|exact Ld]]).
  destruct (elements_step ts r Hr ns Hn _ p0 Wy Lp ltac:(repeat split) eq_refl ltac:(reflexivity)) as (W & L & C & (V1 & V2 & V3) & O).
  rewrite (waits_finish _ W). destruct (like_finish _ _ L) as [He _]. rewrite He.
  assert (Hout : s_evs (pfinish (absorbs ts p0)) = p_out (absorbs ts p0)).
  { unfold pfinish, end_raw. destruct C as (A & B & D & F). rewrite A, B. change (unesc "") with (Some ""). rewrite F, <- V1.
    change (str_nonws "") with false. cbn [p0 p_stack orb]. destruct (p_seen _); reflexivity. }
  rewrite Hout, O. cbn [p0 p_out]. rewrite strip_app.
  change (strip [EStartDoc]) with (@nil event). cbn [app].
  clear. induction ns as [|n ns IH]; [reflexivity|]. cbn [flat_map]. rewrite strip_app, tree_flat_strip, IH. reflexivity.
Qed.

Lemma content_app : forall c, content c -> forall c', content c' -> content (c ++ c').
Proof.
  intros c H. induction H; intros c' Hc'; cbn [app]; [exact Hc'|apply content_text; auto|].
  rewrite <- app_assoc. cbn [app]. apply content_elem; auto.
Qed.
Lemma flat_content : forall n, content (flat n).
Proof.
  fix IH 1. intros [nm a m ks|s].
  - cbn [flat]. apply (content_elem nm a m (flat_map flat ks) []); [|constructor].
    induction ks as [|k ks IHk]; [constructor|]. cbn [flat_map]. apply content_app; [apply IH|exact IHk].
  - cbn [flat]. constructor; [exact I|constructor].
Qed.
Lemma elem_flat : forall nm a m ks, one_element (flat (Elem nm a m ks)).
Proof.
  intros nm a m ks. exists nm, a, m, (flat_map flat ks). split; [|reflexivity].
  induction ks as [|k ks IHk]; [constructor|]. cbn [flat_map]. apply content_app; [apply flat_content|exact IHk].
Qed.

Lemma own_elements : forall x E fuel ids ts vs, own_documents x E fuel ids ts vs ->
  exists ns, Forall2 (denotes no_scope) ts ns /\ all_alone (own_alone x E fuel) ids (map flat ns) vs.
Proof.
  intros x E fuel ids ts vs H. induction H as [|id t v ids ts vs td n s Htd Hf Hn Hd Hr H (ns & IH1 & IH2)].
  - exists []. split; constructor.
  - exists (n :: ns). split; [constructor; assumption|]. cbn [map]. constructor; [|exact IH2].
    exists td, FEnd. split; [exact Htd|]. split; [left; exact Hf|].
    destruct (document_tree t s n Hd Hn) as [Hfin Hev]. split.
    + destruct Hd as (? & ? & ? & e & ? & _ & _ & _ & He & _).
      destruct He; inversion Hn; subst; apply elem_flat.
    + unfold from_str in Hr. destruct (parse_text s) as [ev fi]. cbn [s_evs s_fin] in *. subst fi.
      rewrite C03_derived, Hev in Hr. exact Hr.
Qed.

Theorem texts_in_turn : forall x E fuel ids ts vs s, own_documents x E fuel ids ts vs -> several_documents ts s ->
  exists N, forall fl, N <= fl ->
  fst (run (read_in_turn x E fuel fl ids) (d_init (parse_text s))) = OOk vs.
Proof.
  intros x E fuel ids ts vs s H Hs. destruct (own_elements _ _ _ _ _ _ H) as (ns & Hn & Ha).
  exists (List.length (concat (map flat ns))). intros fl Hl.
  pose proof (several_delivered ts s ns Hs Hn) as Hev. rewrite flat_map_concat_map in Hev.
  destruct (parse_text s) as [ev fi] eqn:Hp. cbn [s_evs] in Hev.
  pose proof (all_in_turn _ _ _ _ _ _ Ha 0 ev [] fi fl _ (fun l => Ret l)) as Ht. rewrite app_nil_r in Ht. specialize (Ht Hev Hl).
  cbn [run fst] in Ht. rewrite <- Ht. unfold d_init. rewrite !(proj1 (run_view _ _ _)), vrun_bind.
  destruct (vrun _ _) as [[]]; reflexivity.
Qed.
