(** * Deciding [Rewritable] and [Welcome] for the examples of C59. *)
From Verif Require Import Str Num Xml XmlText Reader Schema SpecTree SpecText SpecStruct TreeFacts TextProofs SpecRound RoundCheck FitsCheck SpecRewrite SpecSpread.
Open Scope list_scope.
Open Scope bool_scope.

Fixpoint aboveb (p : string) (m : nsmap) : bool :=
  match m with [] => true | (q, _) :: r => match String.compare p q with Lt => true | _ => false end && aboveb p r end.
Lemma aboveb_ok : forall p m, aboveb p m = true -> above p m.
Proof.
  intros p m. induction m as [|[q u] r IH]; intros H q' u' Hin; [contradiction|]. cbn [aboveb] in H. apply andb_true_iff in H. destruct H as [H1 H2].
  destruct Hin as [Hin|Hin]; [injection Hin as <- <-; destruct (String.compare p q); congruence|exact (IH H2 q' u' Hin)].
Qed.
Fixpoint ns_sortedb (m : nsmap) : bool := match m with [] => true | (p, _) :: r => aboveb p r && ns_sortedb r end.
Lemma ns_sortedb_ok : forall m, ns_sortedb m = true -> ns_sorted m.
Proof.
  induction m as [|[p u] r IH]; intros H; [exact I|]. cbn [ns_sortedb] in H. apply andb_true_iff in H. destruct H as [H1 H2].
  split; [apply aboveb_ok; exact H1|exact (IH H2)].
Qed.
Definition keepsb (o m : nsmap) : bool :=
  forallb (fun pu => match ns_get o (fst pu), ns_get m (fst pu) with Some u, Some u' => String.eqb u u' | None, _ => true | _, _ => false end) o.
Lemma keepsb_ok : forall o m, keepsb o m = true -> forall p u, ns_get o p = Some u -> ns_get m p = Some u.
Proof.
  intros o m H p u Hg. unfold keepsb in H. rewrite forallb_forall in H.
  assert (Hin : exists u', In (p, u') o).
  { clear H. revert Hg. induction o as [|[q w] r IH]; intros Hg; [discriminate|]. cbn [ns_get] in Hg.
    destruct (String.eqb q p) eqn:He.
    - apply String.eqb_eq in He. subst q. exists w. left. reflexivity.
    - destruct (IH Hg) as [u' Hu]. exists u'. right. exact Hu. }
  destruct Hin as [u' Hin]. specialize (H _ Hin). cbn [fst] in H. rewrite Hg in H.
  destruct (ns_get m p) as [w|]; [|discriminate]. apply String.eqb_eq in H. subst w. reflexivity.
Qed.

Fixpoint rewritableb (o : nsmap) (t : node) {struct t} : bool :=
  match t with
  | Txt s => cleanb s
  | Elem n a m ks =>
      ns_sortedb m && keepsb o m && forallb good_declb m && good_nameb n && bindsb [m] n && opt_eqb (n_ns n) (n_ns (rname [m] n)) &&
      forallb (fun b => good_attrb [m] b && legal_attr (at_value b)) a && nodupb (map (fun b => name_repr (at_name b)) a) &&
      Nat.leb (List.length (filter is_txt ks)) 1 && forallb (rewritableb m) ks
  end.
Lemma rewritableb_ok : forall t o, rewritableb o t = true -> Rewritable o t.
Proof.
  induction t as [s|n a m ks IH] using node_ind'; intros o H; cbn [rewritableb] in H.
  - apply rw_txt. apply cleanb_ok. exact H.
  - rewrite !andb_true_iff in H. destruct H as (((((((((H1 & H2) & H3) & H4) & H5) & H6) & H7) & H8) & H9) & H10).
    rewrite forallb_forall in H3, H7, H10. apply rw_elem.
    + apply ns_sortedb_ok. exact H1.
    + apply keepsb_ok. exact H2.
    + intros pu Hin. apply good_declb_ok, H3, Hin.
    + apply good_nameb_ok. exact H4.
    + apply bindsb_ok. exact H5.
    + apply opt_eqb_ok. exact H6.
    + intros b Hb. specialize (H7 b Hb). apply andb_true_iff in H7. destruct H7 as [Hg Hl]. split; [apply good_attrb_ok; exact Hg|exact Hl].
    + apply nodupb_ok. exact H8.
    + apply Nat.leb_le. exact H9.
    + intros k Hk. apply IH; auto.
Qed.

Fixpoint nolabelb (l : string * string) (ls : list (string * string)) : bool :=
  match ls with [] => true | m :: r => negb (String.eqb (fst l) (fst m) && String.eqb (snd l) (snd m)) && nolabelb l r end.
Fixpoint labels_distinctb (ls : list (string * string)) : bool := match ls with [] => true | l :: r => nolabelb l r && labels_distinctb r end.
Lemma labels_nodup : forall ls, labels_distinctb ls = true -> NoDup ls.
Proof.
  induction ls as [|l r IH]; intros H; constructor; cbn [labels_distinctb] in H; apply andb_true_iff in H; destruct H as [H1 H2]; [|auto].
  clear - H1. induction r as [|m r IH]; [exact (fun f => f)|]. cbn [nolabelb] in H1. apply andb_true_iff in H1. destruct H1 as [H1 H2].
  intros [->|Hin]; [|exact (IH H2 Hin)]. rewrite !String.eqb_refl in H1. discriminate.
Qed.
