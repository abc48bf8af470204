(** * C16 for attributes, on any input that starts with the element. *)
From Verif Require Import Str Num Xml XmlText Reader Schema De RunFacts SpecTree TreeFacts TreeProofs
  SpecText SpecValue ValueProofs SpecStruct StructProofs FuelProofs.
Open Scope list_scope.

Section Attrs.
  Variable x : ext.
  Variable E : env.

  (** From some fuel on. *)
  Definition late (P : nat -> Prop) : Prop := exists N, forall f, N <= f -> P f.
  Lemma late_all : forall (P : nat -> Prop), (forall f, P f) -> late P.
  Proof. intros P H. exists 0. auto. Qed.
  Lemma late_and : forall P Q : nat -> Prop, late P -> late Q -> late (fun f => P f /\ Q f).
  Proof. intros P Q [N H] [M H']. exists (N + M). intros f Hf. split; [apply H|apply H']; lia. Qed.
  Lemma late_impl : forall P Q : nat -> Prop, (forall f, P f -> Q f) -> late P -> late Q.
  Proof. intros P Q H [N HN]. exists N. auto. Qed.

  Lemma valid_visit : forall b t, item_valid x E b t -> exists v, late (fun f => visit_attr x E (de x E f) b t = Ret v).
  Proof.
    intros [s|id] t H; cbn [item_valid] in H.
    - destruct H as [v Hv]. exists v. apply late_all. intros f. unfold visit_attr. rewrite Hv. reflexivity.
    - destruct H as (td & fu & v & Htd & Hv). exists v. exists fu. intros f Hf. unfold visit_attr, from_str_in. rewrite Htd.
      unfold from_str in Hv. assert (Hn : from_events x E fu id (parse_text ("<" +++ t_name td +++ ">" +++ t +++ "</" +++ t_name td +++ ">")) <> OFuel)
        by (rewrite Hv; discriminate).
      pose proof (fuel_more x E id _ fu f Hf Hn) as He. rewrite Hv in He. unfold from_events in He. rewrite He. reflexivity.
  Qed.
  Lemma invalid_visit : forall b t e, item_invalid x E b t e -> late (fun f => visit_attr x E (de x E f) b t = Throw e).
  Proof.
    intros [s|id] t e H; cbn [item_invalid] in H.
    - apply late_all. intros f. unfold visit_attr. rewrite H. reflexivity.
    - destruct H as (td & fu & Htd & Hv). exists fu. intros f Hf. unfold visit_attr, from_str_in. rewrite Htd.
      unfold from_str in Hv. assert (Hn : from_events x E fu id (parse_text ("<" +++ t_name td +++ ">" +++ t +++ "</" +++ t_name td +++ ">")) <> OFuel)
        by (rewrite Hv; discriminate).
      pose proof (fuel_more x E id _ fu f Hf Hn) as He. rewrite Hv in He. unfold from_events in He. rewrite He. reflexivity.
  Qed.

  Lemma valid_items : forall b i l ss, (forall t, In t l -> item_valid x E b t) ->
    exists ss', late (fun f => forall r, visit_attr_items x E (de x E f) b i (l ++ r) ss = visit_attr_items x E (de x E f) b i r ss').
  Proof.
    intros b i l; induction l as [|t l IH]; intros ss H.
    - exists ss. apply late_all. reflexivity.
    - destruct (valid_visit b t (H t (or_introl eq_refl))) as [v Hv].
      destruct (IH (upd i (put_slot v) ss)) as [ss' Hs]; [intros; apply H; right; assumption|].
      exists ss'. eapply late_impl; [|exact (late_and _ _ Hv Hs)]. intros f [H1 H2] r. cbn [app visit_attr_items].
      rewrite H1. cbn [bind]. apply H2.
  Qed.

  (** What one attribute does to a field. *)
  Definition one_attr (f : nat) (g : field) (i : nat) (a : attr) (ss : list slot) : prog (list slot) :=
    if String.eqb (n_local (at_name a)) (field_local g) then
      match f_ty g with
      | TBase (BSimple SString) => Ret (upd i (put_slot (VStr (at_value a))) ss)
      | TVec b => visit_attr_items x E (de x E f) b i (split_ws (at_value a)) ss
      | TBase b | TOpt b | TOptVec b =>
          bind (visit_attr x E (de x E f) b (at_value a)) (fun v => Ret (upd i (put_slot v) ss))
      end
    else Ret ss.

  Lemma one_valid : forall g i a ss, (n_local (at_name a) = field_name g -> attr_valid x E g a) ->
    exists ss', late (fun f => one_attr f g i a ss = Ret ss').
  Proof.
    intros g i a ss H. unfold one_attr. change (field_local g) with (field_name g).
    destruct (String.eqb _ _) eqn:He; [|exists ss; apply late_all; reflexivity].
    apply String.eqb_eq in He. specialize (H He). unfold attr_valid in H.
    assert (Hone : forall b, item_valid x E b (at_value a) ->
      exists ss', late (fun f => bind (visit_attr x E (de x E f) b (at_value a)) (fun v => Ret (upd i (put_slot v) ss)) = Ret ss')).
    { intros b Hb. destruct (valid_visit _ _ Hb) as [v Hv]. eexists. eapply late_impl; [|exact Hv].
      intros f Hf. cbv beta in Hf. rewrite Hf. reflexivity. }
    destruct (f_ty g) as [b|b|b|b]; cbn [base_of] in H; try (apply Hone; exact H).
    - destruct b as [[]|]; try (apply Hone; exact H). eexists. apply late_all. reflexivity.
    - destruct (valid_items b i _ ss H) as [ss' Hs]. exists ss'. eapply late_impl; [|exact Hs].
      intros f Hf. specialize (Hf []). rewrite app_nil_r in Hf. exact Hf.
  Qed.

  Lemma one_invalid : forall g i a ss e, n_local (at_name a) = field_name g -> attr_invalid x E g a e ->
    late (fun f => one_attr f g i a ss = Throw e).
  Proof.
    intros g i a ss e He H. unfold one_attr. change (field_local g) with (field_name g).
    rewrite He, String.eqb_refl. unfold attr_invalid in H.
    assert (Hone : forall b, item_invalid x E b (at_value a) e ->
      late (fun f => bind (visit_attr x E (de x E f) b (at_value a)) (fun v => Ret (upd i (put_slot v) ss)) = Throw e)).
    { intros b Hb. eapply late_impl; [|exact (invalid_visit _ _ _ Hb)].
      intros f Hf. cbv beta in Hf. rewrite Hf. reflexivity. }
    destruct (f_ty g) as [b|b|b|b]; cbn [base_of] in H; try (apply Hone; exact H).
    - destruct b as [[]|]; try (apply Hone; exact H). discriminate H.
    - destruct H as (w1 & t & w2 & Hs & H1 & H2). rewrite Hs.
      destruct (valid_items b i _ ss H1) as [ss' Hv].
      eapply late_impl; [|exact (late_and _ _ Hv (invalid_visit _ _ _ H2))].
      intros f [Hf1 Hf2]. rewrite Hf1. cbn [visit_attr_items]. rewrite Hf2. reflexivity.
  Qed.

  Lemma load_attr_cons : forall f g i a r ss,
    load_attr x E (de x E f) g i (a :: r) ss = bind (one_attr f g i a ss) (load_attr x E (de x E f) g i r).
  Proof. reflexivity. Qed.

  Lemma load_valid : forall g i attrs ss, (forall c, In c attrs -> n_local (at_name c) = field_name g -> attr_valid x E g c) ->
    exists ss', late (fun f => forall r, load_attr x E (de x E f) g i (attrs ++ r) ss = load_attr x E (de x E f) g i r ss').
  Proof.
    intros g i attrs; induction attrs as [|a l IH]; intros ss H.
    - exists ss. apply late_all. reflexivity.
    - destruct (one_valid g i a ss (H a (or_introl eq_refl))) as [s1 H1].
      destruct (IH s1) as [s2 H2]; [intros; apply H; [right|]; assumption|].
      exists s2. eapply late_impl; [|exact (late_and _ _ H1 H2)]. intros f [Hf1 Hf2] r. cbn [app].
      rewrite load_attr_cons, Hf1. cbn [bind]. apply Hf2.
  Qed.

  Lemma load_invalid : forall fs1 g fs2 a1 b a2 e i ss,
    (forall h, In h fs1 -> ya_attribute (f_attrs h) = true -> forall c, In c (a1 ++ b :: a2) ->
       n_local (at_name c) = field_name h -> attr_valid x E h c) ->
    ya_attribute (f_attrs g) = true ->
    (forall c, In c a1 -> n_local (at_name c) = field_name g -> attr_valid x E g c) ->
    n_local (at_name b) = field_name g -> attr_invalid x E g b e ->
    late (fun f => load_attrs x E (de x E f) (fs1 ++ g :: fs2) i (a1 ++ b :: a2) ss = Throw e).
  Proof.
    intros fs1 g fs2 a1 b a2 e; induction fs1 as [|h fs1 IH]; intros i ss H1 Hg H2 Hn He.
    - cbn [app]. destruct (load_valid g i a1 ss H2) as [s1 Hs].
      pose proof (one_invalid g i b s1 e Hn He) as Hb.
      eapply late_impl; [|exact (late_and _ _ Hs Hb)]. intros f [Hf1 Hf2]. cbn [load_attrs]. rewrite Hg.
      rewrite Hf1, load_attr_cons, Hf2. reflexivity.
    - cbn [app]. destruct (ya_attribute (f_attrs h)) eqn:Hh.
      + destruct (load_valid h i (a1 ++ b :: a2) ss (H1 h (or_introl eq_refl) Hh)) as [s1 Hs].
        assert (Hr : late (fun f => load_attrs x E (de x E f) (fs1 ++ g :: fs2) (S i) (a1 ++ b :: a2) s1 = Throw e))
          by (apply IH; auto; intros; eapply H1; eauto; right; assumption).
        eapply late_impl; [|exact (late_and _ _ Hs Hr)]. intros f [Hf1 Hf2]. cbn [load_attrs]. rewrite Hh.
        specialize (Hf1 []). rewrite app_nil_r in Hf1. rewrite Hf1. cbn [load_attr bind]. exact Hf2.
      + assert (Hr : late (fun f => load_attrs x E (de x E f) (fs1 ++ g :: fs2) (S i) (a1 ++ b :: a2) ss = Throw e))
          by (apply IH; auto; intros; eapply H1; eauto; right; assumption).
        eapply late_impl; [|exact Hr]. intros f Hf. cbn [load_attrs]. rewrite Hh. exact Hf.
  Qed.

  Theorem invalid_attribute : forall id td fs1 g fs2 n a1 b a2 m d e,
    struct_type E id td (fs1 ++ g :: fs2) ->
    (elabel n = root_label td \/ field_for (t_attrs td) (fs1 ++ g :: fs2) n = None) ->
    (d = 0 -> bad_namespace (t_attrs td) n = None) ->
    (forall h, In h fs1 -> ya_attribute (f_attrs h) = true -> forall c, In c (a1 ++ b :: a2) ->
       n_local (at_name c) = field_name h -> attr_valid x E h c) ->
    ya_attribute (f_attrs g) = true ->
    (forall c, In c a1 -> n_local (at_name c) = field_name g -> attr_valid x E g c) ->
    n_local (at_name b) = field_name g -> attr_invalid x E g b e ->
    exists N, forall fuel, N <= fuel -> forall evs tail f,
      filter (fun e => match e with EStartDoc | EPI _ | EComment _ => false | _ => true end) evs
        = EStart n (a1 ++ b :: a2) m :: tail ->
      fst (run (De.de x E fuel id) (DState d (Stream evs f) None)) = OErr e.
  Proof.
    intros id td fs1 g fs2 n a1 b a2 m d e [Htd Hb] Hroot Hns H1 Hg H2 Hn He. set (fs := fs1 ++ g :: fs2) in *.
    destruct (load_invalid fs1 g fs2 a1 b a2 e 0 (map (fun f => init_slot (f_ty f)) fs) H1 Hg H2 Hn He) as [N HN].
    exists (S (S N)). intros fuel Hf evs tail f Hv. destruct fuel as [|fu]; [lia|].
    rewrite (proj1 (run_view _ _ _)). unfold view. cbn [d_depth d_src d_peeked s_evs s_fin app].
    rewrite <- strip_vis, Hv. cbn [de]. unfold de_body. rewrite Htd, Hb.
    unfold de_struct. rewrite vrun_peek_ev, vrun_Depth. rewrite namespace_check_bad.
    assert (Hz : (if Nat.eqb d 0 then bad_namespace (t_attrs td) n else None) = None)
      by (destruct (Nat.eqb d 0) eqn:Hd; [apply Nat.eqb_eq in Hd; auto|reflexivity]).
    rewrite Hz, vrun_bind. destruct fu as [|fv]; [lia|].
    rewrite loop_root by exact Hroot. fold fs in HN. rewrite HN by lia. reflexivity.
  Qed.
End Attrs.
