(** * XML declarations behind the first element (C78): proofs. *)
From Verif Require Import Str Num Xml XmlText Reader Schema De SpecReader SpecTree SpecText SpecComplete SpecXml SpecTurn
  RunFacts ReaderProofs PropertiesReader IndentProofs TextProofs GrammarProofs DenoteProofs TurnProofs TurnText.
From Coq Require Import Lia.
Open Scope list_scope.

Definition pi_error : string := "Invalid processing instruction: <?xml".

Lemma pi_refused : forall p w, legal w = true -> contains "?>" w = false -> pi_kind (w +++ "?>") = Some true -> p_seen p = true ->
  prun (set_mode p (MPI "")) (w +++ "?>") = pfail p pi_error.
Proof.
  intros p w Hl Hc Hk Hs.
  assert (H1 : contains "?>" (w +++ "?") = false) by (exact (contains_snoc w "?" "?" ">" Hc ltac:(discriminate))).
  replace (w +++ "?>") with ((w +++ "?") +++ ">") by (rewrite sapp_assoc; reflexivity).
  rewrite prun_app, pi_run.
  2:{ unfold legal in *. rewrite all_chars_app, Hl. reflexivity. }
  2:{ exact H1. }
  cbn [prun String.append]. unfold pstep. change (illegal_char ">") with false. cbv iota. cbn [p_mode set_mode].
  replace (add1 (w +++ "?") ">") with (w +++ "?>") by (unfold add1; rewrite sapp_assoc; reflexivity).
  rewrite length_app. change (String.length "?>") with 2.
  replace (String.length w + 2 - 2) with (String.length w) by lia.
  pose proof (sub_back w "?>") as Hb. change (String.length "?>") with 2 in Hb. rewrite Hb.
  replace (Nat.leb 2 (String.length w + 2)) with true by (symmetry; apply Nat.leb_le; lia).
  change (true && String.eqb "?>" "?>")%bool with true. cbv iota. rewrite Hk. cbn [p_seen set_mode]. rewrite Hs. cbn [andb negb].
  unfold pfail. rewrite set_set. reflexivity.
Qed.

Lemma declaration_body : forall s, declaration s -> s <> "" ->
  exists d, s = String "<" (String "?" (d +++ "?>")) /\ legal d = true /\ contains "?>" d = false /\ pi_kind (d +++ "?>") = Some true.
Proof.
  intros s [->|(v & e & a & w & Hv & He & Ha & Hw & ->)] Hne; [contradiction|].
  exists ("xml" +++ v +++ e +++ a +++ w). split; [rewrite !sapp_assoc; reflexivity|].
  assert (Hd : every unmarked ("xml" +++ v +++ e +++ a +++ w)).
  { repeat (apply every_app; split).
    - apply literal_unmarked; reflexivity.
    - exact (pseudo_unmarked "version" ["1.0"] v eq_refl eq_refl Hv).
    - destruct He as [->|He]; [constructor|exact (pseudo_unmarked "encoding" ["UTF-8"; "utf-8"] e eq_refl eq_refl He)].
    - destruct Ha as [->|Ha]; [constructor|exact (pseudo_unmarked "standalone" ["yes"; "no"] a eq_refl eq_refl Ha)].
    - apply blank_unmarked, Hw. }
  destruct (unmarked_query _ Hd) as [Hl Hc]. split; [exact Hl|]. split; [exact Hc|].
  destruct Hv as (w1 & w2 & w3 & q & u & [Hw1 Hn] & _ & _ & _ & _ & ->). destruct w1 as [|c w1]; [contradiction|].
  cbn [String.append]. inversion Hw1 as [|? ? Hwc _]; subst. destruct Hwc as [->|[->|[->| ->]]]; reflexivity.
Qed.

Lemma declaration_fails : forall p s, declaration s -> s <> "" -> waits p -> p_seen p = true ->
  prun p s = pfail (rest p) pi_error.
Proof.
  intros p s Hd Hn Wp Hs. destruct (declaration_body s Hd Hn) as (d & -> & Hl & Hc & Hk). cbn [prun].
  destruct (waits_open p Wp) as (b & Hb & ->).
  assert (Hf : pstep (loaded (rest p) MTagOpen b) "?" = set_mode (rest p) (MPI "")).
  { change (flush (loaded (rest p) MTagOpen b) (MPI "") = set_mode (rest p) (MPI "")). unfold flush, loaded. cbn [p_nonws]. rewrite (blank_nonws b Hb). reflexivity. }
  rewrite Hf. apply pi_refused; assumption.
Qed.

Lemma fail_run : forall s p m, prun (pfail p m) s = pfail p m.
Proof. induction s as [|c s IH]; intros p m; [reflexivity|]. cbn [prun]. rewrite pfail_step. apply IH. Qed.

Lemma absorbs_seen : forall ts p, calm p -> p_seen p = true -> p_seen (absorbs ts p) = true.
Proof. intros ts p Hp Hs. apply settled_seen; [apply Forall_forall; intros t _; apply absorb_keeps_seen|exact Hp|exact Hs]. Qed.

(** Where the parser stands behind one or more elements. *)
Lemma behind : forall ts s ns, several_documents ts s -> Forall2 (denotes no_scope) ts ns -> ts <> [] ->
  waits (prun p0 s) /\ p_seen (prun p0 s) = true /\ strip (p_out (prun p0 s)) = flat_map flat ns.
Proof.
  intros ts s ns (d & m & y & r & Hd & Hm & Hy & Hr & ->) Hn Hne.
  rewrite (prun_app d), (prun_app m), (prun_app y).
  destruct (declaration_run d Hd) as [Wd Ld]. destruct (misc_run m Hm _ Wd) as [W1 L1].
  destruct (doctype_run y Hy _ W1 (like_unseen _ (like_trans _ _ _ L1 Ld))) as [Wy Ly].
  assert (Lp : like (rest (prun (prun (prun p0 d) m) y)) p0) by (eapply like_trans; [exact Ly|eapply like_trans; [exact L1|exact Ld]]).
  destruct (elements_step ts r Hr ns Hn _ p0 Wy Lp ltac:(repeat split) eq_refl ltac:(reflexivity)) as (W & L & C & V & O).
  assert (Hs : p_seen (absorbs ts p0) = true).
  { destruct ts as [|t ts]; [contradiction|]. inversion Hn as [|? n ? ns' Hn1 Hn2]; subst. cbn [absorbs].
    destruct (denotes_built t no_scope n Hn1 p0 ltac:(repeat split) ltac:(reflexivity)) as (C1 & V1 & O1).
    apply absorbs_seen; [exact C1|]. inversion Hr as [|? e ? ? ? He]; subst. destruct He; (apply element_seen; [repeat split|exact C1]). }
  set (p := prun (prun (prun (prun p0 d) m) y) r) in *.
  destruct L as [(_ & L2 & _ & _ & _ & _ & _ & _ & L9)|[(e & _ & He) _]]; [|destruct C as [C _]; rewrite C in He; discriminate He].
  cbn [rest p_seen p_out] in L2, L9. split; [exact W|]. split; [exact (eq_trans L9 Hs)|].
  rewrite L2, O. cbn [p0 p_out]. rewrite strip_app. change (strip [EStartDoc]) with (@nil event). cbn [app].
  clear. induction ns as [|n ns IH]; [reflexivity|]. cbn [flat_map]. rewrite strip_app, tree_flat_strip, IH. reflexivity.
Qed.

Theorem declaration_behind : forall ts s ns d r, several_documents ts s -> Forall2 (denotes no_scope) ts ns -> ts <> [] ->
  declaration d -> d <> "" ->
  strip (s_evs (parse_text (s +++ d +++ r))) = flat_map flat ns /\ s_fin (parse_text (s +++ d +++ r)) = FErr pi_error.
Proof.
  intros ts s ns d r Hs Hn Hne Hd Hd0. destruct (behind ts s ns Hs Hn Hne) as (W & Hp & Ho).
  unfold parse_text. rewrite (prun_app s). revert W Hp Ho. generalize (prun p0 s). intros p W Hp Ho.
  rewrite (prun_app d), (declaration_fails _ d Hd Hd0 W Hp), fail_run.
  split; [exact Ho|reflexivity].
Qed.

Lemma doctype_fails : forall p, waits p -> p_seen p = true ->
  exists t, prun p "<!DOCTYPE" = pfail (loaded (rest p) (MBang "DOCTYP") t) "Unexpected token: <!DOCTYPE".
Proof.
  intros p W Hp. destruct (waits_open p W) as (t & _ & Ht). exists t.
  replace "<!DOCTYPE" with (String "<" "" +++ "!DOCTYPE") by reflexivity. rewrite (prun_app (String "<" "")).
  assert (H1 : prun p (String "<" "") = pstep p "<") by reflexivity. rewrite H1, Ht.
  change (prun (loaded (rest p) MTagOpen t) "!DOCTYPE")
    with (if p_seen p then pfail (loaded (rest p) (MBang "DOCTYP") t) "Unexpected token: <!DOCTYPE"
          else set_mode (loaded (rest p) MTagOpen t) MDoctype).
  rewrite Hp. reflexivity.
Qed.
Theorem doctype_behind : forall ts s ns r, several_documents ts s -> Forall2 (denotes no_scope) ts ns -> ts <> [] ->
  strip (s_evs (parse_text (s +++ "<!DOCTYPE" +++ r))) = flat_map flat ns /\
  s_fin (parse_text (s +++ "<!DOCTYPE" +++ r)) = FErr "Unexpected token: <!DOCTYPE".
Proof.
  intros ts s ns r Hs Hn Hne. destruct (behind ts s ns Hs Hn Hne) as (W & Hp & Ho). unfold parse_text. rewrite (prun_app s).
  revert W Hp Ho. generalize (prun p0 s). intros p W Hp Ho.
  rewrite (prun_app "<!DOCTYPE"). destruct (doctype_fails p W Hp) as [t Ht]. rewrite Ht, fail_run. split; [exact Ho|reflexivity].
Qed.

Lemma bang_fails : forall p c, waits p -> c <> "-"%char -> c <> "["%char -> c <> "D"%char ->
  exists t m, prun p (String "<" (String "!" (String c ""))) = pfail (loaded (rest p) (MBang "") t) m.
Proof.
  intros p c W H1 H2 H3. destruct (waits_open p W) as (t & _ & Ht). exists t.
  assert (Hb : pstep (pstep p "<") "!" = loaded (rest p) (MBang "") t) by (rewrite Ht; reflexivity).
  cbn [prun]. rewrite Hb. unfold pstep. cbn [p_mode loaded]. destruct (illegal_char c); [eexists; reflexivity|].
  assert (Hx : forall d z, c <> d -> String.prefix (add1 "" c) (String d z) = false).
  { intros d z Hd. cbn [add1 String.append String.prefix]. destruct (ascii_dec c d); [contradiction|reflexivity]. }
  assert (He : forall d e z, String.eqb (add1 "" c) (String d (String e z)) = false).
  { intros d e z. apply String.eqb_neq. intros H. inversion H. }
  rewrite !He, !Hx by assumption. eexists. reflexivity.
Qed.
Theorem markup_behind : forall ts s ns c r, several_documents ts s -> Forall2 (denotes no_scope) ts ns -> ts <> [] ->
  c <> "-"%char -> c <> "["%char -> c <> "D"%char ->
  strip (s_evs (parse_text (s +++ "<!" +++ String c r))) = flat_map flat ns /\
  exists m, s_fin (parse_text (s +++ "<!" +++ String c r)) = FErr m.
Proof.
  intros ts s ns c r Hs Hn Hne H1 H2 H3. destruct (behind ts s ns Hs Hn Hne) as (W & _ & Ho). unfold parse_text. rewrite (prun_app s).
  revert W Ho. generalize (prun p0 s). intros p W Ho.
  replace ("<!" +++ String c r) with (String "<" (String "!" (String c "")) +++ r) by reflexivity. rewrite prun_app.
  destruct (bang_fails p c W H1 H2 H3) as (t & m & Ht). rewrite Ht, fail_run. split; [exact Ho|exists m; reflexivity].
Qed.

Theorem stops_there : forall x E fuel ids ts vs s d r, own_documents x E fuel ids ts vs -> ids <> [] -> several_documents ts s ->
  declaration d -> d <> "" ->
  exists N, forall fl A (K : list value -> prog A), N <= fl ->
  fst (run (bind (read_in_turn x E fuel fl ids) K) (d_init (parse_text (s +++ d +++ r)))) =
  fst (run (K vs) (DState 0 (Stream [] (FErr pi_error)) None)).
Proof.
  intros x E fuel ids ts vs s d r H Hi Hs Hd Hn0. destruct (own_elements _ _ _ _ _ _ H) as (ns & Hn & Ha).
  assert (Hts : ts <> []) by (destruct H; [contradiction|discriminate]).
  destruct (declaration_behind ts s ns d r Hs Hn Hts Hd Hn0) as [Hev Hfi].
  exists (List.length (concat (map flat ns))). intros fl A K Hl. rewrite flat_map_concat_map in Hev.
  destruct (parse_text (s +++ d +++ r)) as [ev fi]. cbn [s_evs s_fin] in Hev, Hfi. subst fi.
  apply (all_in_turn _ _ _ _ _ _ Ha 0 ev [] (FErr pi_error) fl A K); [rewrite app_nil_r; exact Hev|exact Hl].
Qed.
