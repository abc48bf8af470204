(** * Values written one after the other into one text (C78): proofs. *)
From Verif Require Import Str Num Xml XmlText Reader Schema De Ser SpecReader SpecTree SpecText SpecEnc SpecOut SpecComplete SpecXml SpecWritten SpecTurn SpecLog
  IndentProofs TextProofs GrammarProofs DenoteProofs OutProofs WrittenProofs TurnProofs TurnText SpecRound RoundText.
From Coq Require Import Lia.
Open Scope list_scope.

Lemma misc_blank : forall a b, misc a -> blank b -> misc (a +++ b).
Proof.
  intros a b Ha Hb. induction Ha as [|w s Hw H IH|c s Hc H IH|p s Hp H IH].
  - change (misc b). rewrite <- (TextProofs.sapp_nil b). apply mi_blank; [exact Hb|constructor].
  - rewrite sapp_assoc. apply mi_blank; assumption.
  - rewrite sapp_assoc. apply mi_comment; assumption.
  - rewrite sapp_assoc. apply mi_pi; assumption.
Qed.

Lemma entry_written : forall x E c id v s, writable_types E -> own_type E id -> tame x E (id, v) -> log_config c ->
  to_string_with_config x E c id v = SOk s ->
  exists t n i e, denotes no_scope t n /\ s = i +++ e /\ blank i /\ element t e.
Proof.
  intros x E c id v s Hw (td & Htd & Hfl) He [Hdec Hi] Hs. unfold to_string_with_config in Hs. unfold tame in He. cbn [fst snd] in He.
  destruct (ser_events x E id v) as [l|m|] eqn:Hl; try discriminate Hs. cbn [sbind_pure] in Hs. injection Hs as <-.
  assert (Ho : own_element E id) by (intros td' Htd' Hf'; rewrite Htd in Htd'; injection Htd' as <-; congruence).
  destruct (flat_writable x E id v l Hw Ho Hl (fun e H => proj1 (He l eq_refl e H))) as (w & -> & Hel & HW & Henc).
  assert (Hc : match ec_indent (econf_of c) with Some ind => indentation ind | None => True end).
  { unfold econf_of. cbn [ec_indent]. destruct (c_indent c); [|exact I]. destruct (c_indent_string c) as [i|]; cbn [opt_default]; [exact (Hi i eq_refl)|].
    apply every_cons. split; [left; reflexivity|]. apply every_cons. split; [left; reflexivity|constructor]. }
  unfold emit_text. assert (Hne : wtree w <> []) by (destruct w; [discriminate|destruct Hel|destruct Hel]).
  destruct (wtree w) as [|ev l] eqn:Hwt; [contradiction|]. rewrite <- Hwt in *. clear Hne.
  destruct (tree_written (econf_of c) Hc w [] HW Hel (fun e H => proj2 (He _ eq_refl e H)) [] [(ec_decl (econf_of c), false)] []) as (t & i & e & Ee & Hpi & Hte & Hd).
  rewrite app_nil_r in Ee. exists t. eexists. exists i, e. split; [exact Hd|]. split; [|split; [exact (pale_blank i Hpi)|exact Hte]].
  unfold em0. rewrite Ee. unfold econf_of at 1. cbn [ec_decl]. rewrite Hdec. cbn. rewrite TextProofs.sapp_nil. reflexivity.
Qed.

Lemma log_documents : forall x E fuel l s, writable_types E ->
  (forall p, In p l -> own_type E (fst p) /\ tame x E p) ->
  log x E (fun c id v s => log_config c /\ comes_back x E fuel id v s) l s ->
  exists ts i r, own_documents x E fuel (map fst l) ts (map snd l) /\ s = i +++ r /\ blank i /\ elements ts r.
Proof.
  intros x E fuel l s Hw Hl H. induction H as [|c id v s m l r Hs [Hc Hb] Hm H IH].
  - exists [], "", "". split; [constructor|]. split; [reflexivity|]. split; constructor.
  - destruct (Hl (id, v) (or_introl eq_refl)) as (Ho & Ht).
    destruct IH as (ts & i & r' & H1 & -> & H3 & H4); [intros p Hp; apply Hl; right; exact Hp|].
    destruct (entry_written x E c id v s Hw Ho Ht Hc Hs) as (t & n & i' & e & Hd & -> & Hi' & He).
    destruct Ho as (td & Htd & Hfl). cbn [fst] in Htd.
    exists (t :: ts), i', (e +++ (m +++ i) +++ r'). split; [|split; [rewrite !sapp_assoc; reflexivity|split; [exact Hi'|]]].
    + cbn [map fst snd]. refine (own_more x E fuel id t v _ _ _ td n (i' +++ e) Htd Hfl Hd _ Hb H1).
      exists "", i', "", e, "". split; [left; reflexivity|]. split; [rewrite <- (TextProofs.sapp_nil i'); apply mi_blank; [exact Hi'|constructor]|].
      split; [left; reflexivity|]. split; [exact He|]. split; [constructor|]. rewrite TextProofs.sapp_nil. reflexivity.
    + apply els_more; [exact He|apply misc_blank; assumption|exact H4].
Qed.

Theorem log_read : forall x E fuel l s, writable_types E ->
  (forall p, In p l -> own_type E (fst p) /\ tame x E p) ->
  log x E (fun c id v s => log_config c /\ comes_back x E fuel id v s) l s ->
  exists N, forall fl, N <= fl ->
  fst (run (read_in_turn x E fuel fl (map fst l)) (d_init (parse_text s))) = OOk (map snd l).
Proof.
  intros x E fuel l s Hw Hl H. destruct (log_documents x E fuel l s Hw Hl H) as (ts & i & r & H1 & -> & H3 & H4).
  apply (texts_in_turn x E fuel (map fst l) ts (map snd l) _ H1).
  exists "", i, "", r. split; [left; reflexivity|]. split; [rewrite <- (TextProofs.sapp_nil i); apply mi_blank; [exact H3|constructor]|].
  split; [left; reflexivity|]. split; [exact H4|reflexivity].
Qed.

Lemma indentation_white : forall c, log_config c -> white_indent c.
Proof.
  intros c [_ Hi] s Hs. specialize (Hi s Hs). unfold indentation, every in Hi. clear Hs. induction s as [|a s IH]; [reflexivity|].
  cbn in Hi. inversion Hi as [|? ? Ha Hr]; subst. cbn [all_chars]. rewrite (IH Hr). destruct Ha as [->|[->| ->]]; reflexivity.
Qed.

Lemma log_back : forall x E l s, supported E ->
  (forall p, In p l -> rootable E (fst p) /\ Survives x E false (fst p) (snd p)) ->
  log x E (fun c _ _ _ => log_config c) l s ->
  exists N, forall fuel, N <= fuel -> log x E (fun c id v s => log_config c /\ comes_back x E fuel id v s) l s.
Proof.
  intros x E l s HE Hl H. induction H as [|c id v s m l r Hs Hc Hm H IH].
  - exists 0. intros. constructor.
  - destruct IH as [N HN]; [intros p Hp; apply Hl; right; exact Hp|]. destruct (Hl (id, v) (or_introl eq_refl)) as [Hr Hv].
    destruct (round_text x E c id v s HE Hr Hv (indentation_white c Hc) Hs) as [M HM]. exists (Nat.max N M). intros fuel Hf.
    apply (log_more x E _ c); [exact Hs|split; [exact Hc|apply HM; lia]|exact Hm|apply HN; lia].
Qed.

Theorem log_round : forall x E l s, supported E -> writable_types E ->
  (forall p, In p l -> rootable E (fst p) /\ Survives x E false (fst p) (snd p) /\ own_type E (fst p) /\ tame x E p) ->
  log x E (fun c _ _ _ => log_config c) l s ->
  exists N, forall fuel, N <= fuel -> exists M, forall fl, M <= fl ->
  fst (run (read_in_turn x E fuel fl (map fst l)) (d_init (parse_text s))) = OOk (map snd l).
Proof.
  intros x E l s HE Hw Hl H.
  destruct (log_back x E l s HE (fun p Hp => conj (proj1 (Hl p Hp)) (proj1 (proj2 (Hl p Hp)))) H) as [N HN].
  exists N. intros fuel Hf. apply (log_read x E fuel l s Hw (fun p Hp => proj2 (proj2 (Hl p Hp))) (HN fuel Hf)).
Qed.
