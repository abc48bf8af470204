(** * C30: an enum element mentioning no variant gives the default. *)
From Verif Require Import Str Num Xml XmlText Reader Schema De RunFacts SpecTree SpecValue TreeFacts TreeProofs ValueProofs SpecEnum.
Open Scope list_scope.

Lemma no_variant_find : forall vs s i, no_variant vs s -> find_variant vs i s = None.
Proof.
  induction vs as [|v vs IH]; intros s i H; [reflexivity|]. cbn [find_variant].
  assert (Hr : no_variant vs s) by (intros w Hw; apply H; right; exact Hw).
  destruct (v_body v) eqn:Hb; [| |apply IH; exact Hr].
  all: change (xml_element_name (v_attrs v) (v_label v)) with (variant_name v); destruct (String.eqb (variant_name v) s) eqn:He; [|apply IH; exact Hr];
    apply String.eqb_eq in He; destruct (H v (or_introl eq_refl) He) as [fs Hfs]; congruence.
Qed.

Section Loop.
  Variables (x : ext) (E : env) (rec : nat -> prog value) (td : typedef) (vs : list variant) (ln : string) (sd : nat).
  Let tag := ya_tag (t_attrs td).
  Notation eloop := (enum_loop x rec).

  (** The events do not begin with a text naming a variant. *)
  Definition calm (l : list event) : Prop :=
    match l with [] => False | EChars s :: _ => no_variant vs s | _ => True end.

  Lemma calm_kids : forall ks n tail, (forall k, In k ks -> Unknown tag vs k) ->
    calm (flat_map flat ks ++ EEnd n :: tail).
  Proof.
    intros [|k ks] n tail H; [exact I|]. specialize (H k (or_introl eq_refl)).
    destruct H as [s Hs|]; [exact Hs|exact I].
  Qed.

  Lemma start_step : forall fl cur n a m d tail fn s,
    mention tag n a = Some s -> no_variant vs s -> calm tail ->
    vrun (eloop (S fl) td vs ln sd cur) (VState d (EStart n a m :: tail) fn) =
    vrun (eloop fl td vs ln sd cur) (VState (S d) tail fn).
  Proof.
    intros fl cur n a m d tail fn s Hm Hs Hc. cbn [enum_loop]. rewrite vrun_peek_ev.
    assert (He : enum_element_name (ya_tag (t_attrs td)) n a = Ok s).
    { unfold enum_element_name, mention, tag in *. destruct (ya_tag (t_attrs td)) as [t|]; [|congruence].
      destruct (find _ a); congruence. }
    rewrite He. cbn [of_res bind]. rewrite no_variant_find by exact Hs. cbn [bind].
    rewrite (vrun_Next_ev _ _ d (S d)) by reflexivity. cbn [bind].
    destruct tail as [|e tail]; [destruct Hc|]. rewrite vrun_peek_ev.
    destruct e; try reflexivity. cbn [calm] in Hc. rewrite no_variant_find by exact Hc. reflexivity.
  Qed.

  Lemma unknown_loop : forall k, Unknown tag vs k -> forall fl cur d n tail fn ks, S sd <= d ->
    (forall k, In k ks -> Unknown tag vs k) ->
    vrun (eloop (len k + fl) td vs ln sd cur) (VState d (flat k ++ flat_map flat ks ++ EEnd n :: tail) fn) =
    vrun (eloop fl td vs ln sd cur) (VState d (flat_map flat ks ++ EEnd n :: tail) fn).
  Proof.
    induction k as [s|n' a m kids IH] using node_ind'; intros Hu fl cur d n tail fn ks Hd Hks.
    - reflexivity.
    - inversion Hu as [|? ? ? ? s Hm Hs Hin]; subst. rewrite flat_elem_app, len_elem.
      replace (lens kids + 2 + fl) with (S (lens kids + S fl)) by lia.
      rewrite (start_step _ _ _ _ _ _ _ _ s Hm Hs); [|apply calm_kids; exact Hin].
      set (rest := flat_map flat ks ++ EEnd n :: tail).
      assert (Hl : forall q, vrun (eloop (lens kids + q) td vs ln sd cur) (VState (S d) (flat_map flat kids ++ EEnd n' :: rest) fn) =
                   vrun (eloop q td vs ln sd cur) (VState (S d) (EEnd n' :: rest) fn)).
      { intros q. clear Hu. induction kids as [|k kids IHk]; [reflexivity|].
        rewrite lens_cons. cbn [flat_map]. rewrite <- app_assoc, <- Nat.add_assoc.
        rewrite (IH k (or_introl eq_refl)).
        - apply IHk; [intros k' Hk'; apply IH; right; exact Hk'|intros k' Hk'; apply Hin; right; exact Hk'].
        - apply Hin; left; reflexivity.
        - lia.
        - intros k' Hk'; apply Hin; right; exact Hk'. }
      rewrite Hl, eloop_end by lia. reflexivity.
  Qed.

  Lemma unknown_kids : forall kids fl cur n tail fn, (forall k, In k kids -> Unknown tag vs k) -> n_local n = ln ->
    lens kids < fl ->
    vrun (eloop fl td vs ln sd cur) (VState (S sd) (flat_map flat kids ++ EEnd n :: tail) fn) =
    (OOk cur, VState (S sd) (EEnd n :: tail) fn).
  Proof.
    induction kids as [|k kids IH]; intros fl cur n tail fn Hin Hn Hfl.
    - destruct fl as [|fl]; [lia|]. apply eloop_own_end. exact Hn.
    - rewrite lens_cons in Hfl. cbn [flat_map]. rewrite <- app_assoc.
      replace fl with (len k + (fl - len k)) by lia.
      rewrite unknown_loop; [apply IH; [intros k' Hk'; apply Hin; right; exact Hk'|exact Hn|lia]
                            |apply Hin; left; reflexivity|lia|intros k' Hk'; apply Hin; right; exact Hk'].
  Qed.
End Loop.

Theorem unknown_default : forall x E id td vs dflt d n attrs m kids,
  nth_error E id = Some td -> t_body td = DEnum vs dflt ->
  bad_namespace (t_attrs td) n = None -> Unknown (ya_tag (t_attrs td)) vs (Elem n attrs m kids) ->
  Reads x E id d (Elem n attrs m kids) (OOk dflt).
Proof.
  intros x E id td vs dflt d n attrs m kids Htd Hb Hns Hu.
  exists (S (S (S (lens kids)))). intros fuel Hf evs tail f Hv. rewrite strip_vis in Hv.
  rewrite (run_flat _ _ _ _ _ _ _ Hv). destruct fuel as [|fuel]; [lia|].
  cbn [De.de]. unfold de_body. rewrite Htd, Hb. unfold de_enum.
  rewrite flat_elem_app, vrun_peek_ev, vrun_Depth, namespace_check_bad, Hns, vrun_bind.
  inversion Hu as [|? ? ? ? s Hm Hs Hin]; subst. destruct fuel as [|fuel]; [lia|].
  erewrite start_step by (exact Hm || exact Hs || (eapply calm_kids; exact Hin)).
  rewrite unknown_kids; [reflexivity|exact Hin|reflexivity|lia].
Qed.

(** What goes wrong otherwise. *)
Theorem enum_namespace : forall x E id td vs dflt d n attrs m kids msg,
  nth_error E id = Some td -> t_body td = DEnum vs dflt -> bad_namespace (t_attrs td) n = Some msg ->
  Reads x E id d (Elem n attrs m kids) (OErr msg).
Proof.
  intros x E id td vs dflt d n attrs m kids msg Htd Hb Hns.
  exists 1. intros fuel Hf evs tail f Hv. rewrite strip_vis in Hv.
  rewrite (run_flat _ _ _ _ _ _ _ Hv). destruct fuel as [|fuel]; [lia|].
  cbn [De.de]. unfold de_body. rewrite Htd, Hb. unfold de_enum.
  rewrite flat_elem_app, vrun_peek_ev, vrun_Depth, namespace_check_bad, Hns. reflexivity.
Qed.

Theorem enum_untagged : forall x E id td vs dflt d n attrs m kids tg,
  nth_error E id = Some td -> t_body td = DEnum vs dflt -> bad_namespace (t_attrs td) n = None ->
  ya_tag (t_attrs td) = Some tg -> mention (Some tg) n attrs = None ->
  Reads x E id d (Elem n attrs m kids) (OErr ("Expected enum tagged with " +++ tg)).
Proof.
  intros x E id td vs dflt d n attrs m kids tg Htd Hb Hns Ht Hm.
  exists 2. intros fuel Hf evs tail f Hv. rewrite strip_vis in Hv.
  rewrite (run_flat _ _ _ _ _ _ _ Hv). destruct fuel as [|[|fuel]]; [lia|lia|].
  cbn [De.de]. unfold de_body. rewrite Htd, Hb. unfold de_enum.
  rewrite flat_elem_app, vrun_peek_ev, vrun_Depth, namespace_check_bad, Hns, vrun_bind.
  cbn [enum_loop]. rewrite vrun_peek_ev, Ht. unfold enum_element_name, mention in *.
  destruct (find _ attrs); [discriminate|reflexivity].
Qed.

(** An element named like a unit variant gives that variant, whatever it
    holds. *)
Theorem own_name_wins : forall x E id td vs dflt d n attrs m kids i,
  nth_error E id = Some td -> t_body td = DEnum vs dflt -> bad_namespace (t_attrs td) n = None ->
  ya_tag (t_attrs td) = None -> variant_for vs (n_local n) = Some (i, VbUnit) ->
  Reads x E id d (Elem n attrs m kids) (OOk (VVar i [])).
Proof.
  intros x E id td vs dflt d n attrs m kids i Htd Hb Hns Ht Hv0.
  exists 2. intros fuel Hf evs tail f Hv. rewrite strip_vis in Hv.
  rewrite (run_flat _ _ _ _ _ _ _ Hv). destruct fuel as [|[|fuel]]; [lia|lia|].
  cbn [De.de]. unfold de_body. rewrite Htd, Hb. unfold de_enum.
  rewrite flat_elem_app, vrun_peek_ev, vrun_Depth, namespace_check_bad, Hns, vrun_bind.
  cbn [enum_loop]. rewrite vrun_peek_ev, Ht. cbn [enum_element_name of_res bind].
  rewrite find_variant_for, Hv0. reflexivity.
Qed.
