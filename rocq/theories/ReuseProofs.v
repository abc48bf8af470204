(** * One serializer for several values: proofs (C75). *)
From Verif Require Import Str Num Xml XmlText Reader Schema Ser SpecTree SpecText SpecEnc SpecSer EncProofs SpecReuse.
Open Scope list_scope.

Lemma ser_fresh : forall x E id v l w, ser_events x E id v = SOk l -> w_skip w = false -> w_name w = None ->
  exists w', ser x E id v never w = (SOk tt, w') /\ w_evs w' = w_evs w ++ l /\ w_stack w' = w_stack w.
Proof.
  intros x E id v l w Hl Hs Hn. pose proof (ser_events_encode x E id v) as He.
  pose proof (ser_agrees x E never (or_introl (fun _ => eq_refl)) id v (Under None) w) as Ha.
  assert (Hh : how_of w = Under None) by (unfold how_of; rewrite Hs, Hn; reflexivity). specialize (Ha Hh).
  destruct (encode x E id v (Under None)) as [ts|]; [|exfalso; exact (He l Hl)]. assert (l = flat_map wtree ts) by congruence. subst l. cbn [omap] in Ha.
  destruct (writes_forest ts w) as (w' & H1 & H2 & H3). rewrite H1 in Ha.
  destruct (ser x E id v never w) as [[[]|m|] w1]; destruct Ha as [Hc Hr]; cbn in Hc, Hr; try tauto.
  exists w1. split; [reflexivity|]. unfold core in Hc. injection Hc as Hc1 Hc2 _. split; congruence.
Qed.

Lemma reuse_reset : forall x E jobs ls, alone x E jobs ls -> forall w, exists w',
  one_by_one_reset x E jobs (fun _ => false) w = (SOk tt, w') /\ w_evs w' = w_evs w ++ concat ls /\ w_stack w' = w_stack w.
Proof.
  intros x E jobs ls H. change (fun _ : nat => false) with never. induction H as [|[id v] l jobs ls Hl _ IH]; intros w.
  - exists w. cbn [one_by_one_reset smap concat]. rewrite app_nil_r. split; [reflexivity|]. split; reflexivity.
  - cbn [fst snd] in Hl.
    destruct (ser_fresh x E id v l (WState (w_evs w) (w_stack w) (w_calls w) false None) Hl eq_refl eq_refl) as (w1 & H1 & H2 & H3). cbn [w_evs w_stack] in H2, H3.
    destruct (IH w1) as (w2 & H4 & H5 & H6). exists w2. split.
    + unfold one_by_one_reset in *. cbn [smap fst snd]. unfold sbind at 1 2 3. unfold set_name, set_skip. cbn [w_evs w_stack w_calls w_skip w_name]. rewrite H1. exact H4.
    + cbn [concat]. rewrite H5, H2, app_assoc. split; [reflexivity|congruence].
Qed.

(** ** Serializers that leave the flags alone *)
Definition flags (w : wstate) : bool * option string := (w_skip w, w_name w).
Definition leaves {A} (p : sm A) : Prop := forall sched w, flags (snd (p sched w)) = flags w.
Lemma leaves_bind : forall A B (p : sm A) (f : A -> sm B), leaves p -> (forall a, leaves (f a)) -> leaves (sbind p f).
Proof.
  intros A B p f Hp Hf sched w. unfold sbind. specialize (Hp sched w). destruct (p sched w) as [[a|m|] w']; cbn [snd] in *; [rewrite Hf|..]; exact Hp.
Qed.
Lemma leaves_ret : forall A (a : A), leaves (sret a). Proof. intros A a sched w. reflexivity. Qed.
Lemma leaves_stuck : forall A, leaves (@sstuck A). Proof. intros A sched w. reflexivity. Qed.
Lemma leaves_lift : forall A (r : sres A), leaves (slift r). Proof. intros A r sched w. reflexivity. Qed.
Lemma leaves_opt : forall A (o : option A), leaves (of_opt o). Proof. intros A [a|] sched w; reflexivity. Qed.
Lemma leaves_skip : leaves get_skip. Proof. intros sched w. reflexivity. Qed.
Lemma leaves_name : leaves get_name. Proof. intros sched w. reflexivity. Qed.
Lemma leaves_write : forall e, leaves (write e).
Proof. intros e sched w. unfold write. destruct (sched _); [reflexivity|]. destruct (emit_check _ _) as [st []]; reflexivity. Qed.
Lemma leaves_err : forall p m, leaves p -> leaves (with_err p m).
Proof. intros p m H sched w. specialize (H sched w). unfold with_err. destruct (p sched w) as [[a|m'|] w']; exact H. Qed.
Lemma leaves_smap : forall A (f : A -> sm unit) l, (forall a, leaves (f a)) -> leaves (smap f l).
Proof. intros A f l H. induction l as [|a l IH]; cbn [smap]; [apply leaves_ret|]. apply leaves_bind; [apply H|intros _; exact IH]. Qed.
Global Hint Resolve leaves_ret leaves_stuck leaves_lift leaves_opt leaves_skip leaves_name leaves_write leaves_err leaves_smap : leaves.
Ltac lgo := repeat (apply leaves_bind; [|intros]); auto with leaves.

Lemma leaves_one : forall x q s v, leaves (sbind (of_opt (show_simple x s v)) (fun t => enclose q t)).
Proof. intros x q s v. unfold enclose. lgo. Qed.
Global Hint Resolve leaves_one : leaves.
Lemma leaves_field : forall x rec ra self f v, ya_attribute (f_attrs f) = true \/ simple_ty (f_ty f) -> leaves (ser_field x rec ra self f v).
Proof.
  intros x rec ra self f v H. unfold ser_field. destruct (ya_attribute _); [lgo|]. destruct H as [H|H]; [discriminate H|]. destruct (ya_text _).
  { destruct (f_ty f) as [[[]|]|[[]|]|b|b]; lgo; destruct v as [t| | | | |[[t| | | | | | | |]|]| | |]; lgo. }
  destruct (negb _); [lgo|]. destruct (ya_cdata _).
  { destruct (f_ty f) as [[[]|]|b|b|b]; lgo. destruct v; lgo. }
  destruct (f_ty f) as [[s|id]|[s|id]|[s|id]|[s|id]]; try contradiction H; auto with leaves; destruct v as [| | | | |[[]|]| | |]; auto with leaves.
Qed.
Lemma leaves_fields : forall x rec ra self fs vs, (forall f, In f fs -> ya_attribute (f_attrs f) = true \/ simple_ty (f_ty f)) ->
  leaves (ser_fields x rec ra self fs vs).
Proof.
  intros x rec ra self fs. induction fs as [|f fs IH]; intros [|w vs] H; cbn [ser_fields]; auto with leaves. apply leaves_bind.
  - apply leaves_field. apply H. left. reflexivity.
  - intros _. apply IH. intros g Hg. apply H. right. exact Hg.
Qed.
Lemma leaves_type : forall x E id td v, nth_error E id = Some td -> leaf_type td -> leaves (ser x E id v).
Proof.
  intros x E id td v Htd Hl. unfold ser. cbn [ser_all fst]. unfold ser_body. rewrite Htd. unfold leaf_type in Hl. destruct (t_body td) as [fs|vars d|k] eqn:Hb.
  - unfold ser_derived. apply leaves_bind; [lgo|intros skip]. apply leaves_bind.
    { destruct (_ && _)%bool; [|lgo]. apply leaves_bind; [lgo|intros o]. apply leaves_bind; [lgo|intros [[own child] cns]]. lgo. }
    intros _. apply leaves_bind; [|intros _; destruct (_ && _)%bool; lgo]. unfold inspector. rewrite Hb. destruct v as [| | | | | | |vs|]; try apply leaves_stuck.
    apply leaves_fields. exact Hl.
  - unfold ser_derived. apply leaves_bind; [lgo|intros skip]. apply leaves_bind.
    { destruct (_ && _)%bool; [|lgo]. apply leaves_bind; [lgo|intros o]. apply leaves_bind; [lgo|intros [[own child] cns]]. lgo. }
    intros _. apply leaves_bind; [|intros _; destruct (_ && _)%bool; lgo]. unfold inspector. rewrite Hb. destruct v as [| | | | | | | |i l]; try apply leaves_stuck.
    destruct (nth_error vars i) as [vr|] eqn:Hi; [|apply leaves_stuck]. apply nth_error_In in Hi. specialize (Hl vr Hi). unfold ser_variant.
    destruct (v_body vr) as [|fl t|fs]; [| |contradiction Hl].
    + destruct l; [|apply leaves_stuck]. destruct (ya_tag _); lgo.
    + destruct t as [[s|]|b|b|b]; try contradiction Hl. destruct l as [|w [|]]; try apply leaves_stuck. cbn [ser_payload]. apply leaves_one.
  - unfold ser_prim. apply leaves_bind; [lgo|intros o]. apply leaves_bind; [lgo|intros skip].
    apply leaves_bind; [destruct skip; lgo|intros _]. apply leaves_bind; [lgo|intros t]. apply leaves_bind; [lgo|intros _]. destruct skip; lgo.
Qed.

Lemma reuse_leaf : forall x E js p ls, alone x E (js ++ [p]) ls ->
  (forall id v, In (id, v) js -> exists td, nth_error E id = Some td /\ leaf_type td) ->
  forall w, w_skip w = false -> w_name w = None -> exists w',
  one_by_one x E (js ++ [p]) (fun _ => false) w = (SOk tt, w') /\ w_evs w' = w_evs w ++ concat ls /\ w_stack w' = w_stack w.
Proof.
  intros x E js p. change (fun _ : nat => false) with never. induction js as [|[id v] js IH]; intros ls Ha Hl w Hs Hn; unfold alone in Ha; cbn [app] in Ha; inversion Ha as [|? l ? ls' H1 H2 Hx Hy]; subst.
  - inversion H2; subst. destruct (ser_fresh x E (fst p) (snd p) l w H1 Hs Hn) as (w' & H3 & H4 & H5). exists w'.
    unfold one_by_one. cbn [app smap concat]. unfold sbind. rewrite H3. rewrite app_nil_r. repeat split; assumption.
  - cbn [fst snd] in H1. destruct (ser_fresh x E id v l w H1 Hs Hn) as (w1 & H3 & H4 & H5).
    destruct (Hl id v (or_introl eq_refl)) as (td & Htd & Hleaf). pose proof (leaves_type x E id td v Htd Hleaf never w) as Hf.
    rewrite H3 in Hf. cbn [snd] in Hf. unfold flags in Hf. injection Hf as Hf1 Hf2.
    destruct (IH ls' H2 (fun i u Hu => Hl i u (or_intror Hu)) w1) as (w2 & H6 & H7 & H8); [congruence..|]. exists w2. split.
    + unfold one_by_one in *. cbn [app smap fst snd]. unfold sbind at 1. rewrite H3. exact H6.
    + cbn [concat]. rewrite H7, H4, app_assoc. split; [reflexivity|congruence].
Qed.

(** ** What stays behind *)
Definition moves {A} (p : sm A) (g : how -> how) : Prop :=
  forall sched w a w', p sched w = (SOk a, w') -> how_of w' = g (how_of w).
Lemma moves_leaves : forall A (p : sm A), leaves p -> moves p (fun h => h).
Proof.
  intros A p H sched w a w' Hp. specialize (H sched w). rewrite Hp in H. cbn [snd] in H. unfold flags in H. injection H as H1 H2.
  unfold how_of. rewrite H1, H2. reflexivity.
Qed.
Lemma moves_bind : forall A B (p : sm A) (f : A -> sm B) g1 g2, moves p g1 -> (forall a, moves (f a) g2) -> moves (sbind p f) (fun h => g2 (g1 h)).
Proof.
  intros A B p f g1 g2 Hp Hf sched w b w' H. unfold sbind in H. destruct (p sched w) as [[a|m|] w1] eqn:E1; try discriminate H.
  rewrite (Hf a _ _ _ _ H), (Hp _ _ _ _ E1). reflexivity.
Qed.
Lemma moves_after : forall A B (p : sm A) (f : A -> sm B) g, leaves p -> (forall a, moves (f a) g) -> moves (sbind p f) g.
Proof. intros A B p f g Hp Hf. apply (moves_bind A B p f (fun h => h) g); [apply moves_leaves; exact Hp|exact Hf]. Qed.
Lemma moves_before : forall A B (p : sm A) (f : A -> sm B) g, moves p g -> (forall a, leaves (f a)) -> moves (sbind p f) g.
Proof. intros A B p f g Hp Hf. apply (moves_bind A B p f g (fun h => h)); [exact Hp|intros a; apply moves_leaves, Hf]. Qed.
Lemma moves_set : forall o (b : bool) (q : sm unit) g, moves q g -> moves (set_name o ;;; set_skip b ;;; q) (fun _ => g (if b then Inside else Under o)).
Proof.
  intros o b q g Hq sched w a w' H. unfold sbind, set_name, set_skip in H. cbn [w_evs w_stack w_calls w_skip w_name] in H.
  rewrite (Hq _ _ _ _ H). destruct b; reflexivity.
Qed.
Lemma moves_set' : forall o (b : bool) (q : sm unit) g, moves q g -> moves ((set_name o ;;; set_skip b) ;;; q) (fun _ => g (if b then Inside else Under o)).
Proof.
  intros o b q g Hq sched w a w' H. apply (moves_set o b q g Hq sched w a w'). unfold sbind, set_name, set_skip in *. exact H.
Qed.
Lemma moves_stuck : forall A g, moves (@sstuck A) g. Proof. intros A g sched w a w' H. discriminate H. Qed.
Lemma moves_smap : forall A (f : A -> sm unit) (g : A -> how -> how) l, (forall a, moves (f a) (g a)) -> moves (smap f l) (fun h => fold_left (fun h' a => g a h') l h).
Proof.
  intros A f g l H. induction l as [|a l IH]; cbn [smap fold_left]; [apply moves_leaves, leaves_ret|].
  apply (moves_bind _ _ (f a) _ (g a) (fun h => fold_left (fun h' b => g b h') l h)); [apply H|intros _; exact IH].
Qed.
Lemma moves_fun : forall A (p : sm A) g g', moves p g -> (forall h, g h = g' h) -> moves p g'.
Proof. intros A p g g' H Hg sched w a w' Hp. rewrite <- Hg. exact (H _ _ _ _ Hp). Qed.
Lemma leaves_swallow : forall p, leaves p -> leaves (swallow p).
Proof. intros p H sched w. specialize (H sched w). unfold swallow. destruct (p sched w) as [[a|m|] w']; exact H. Qed.
Global Hint Resolve leaves_swallow : leaves.

Section Leftover.
  Variable x : ext.
  Variable E : env.
  Variable rec : nat -> value -> sm unit.
  Variable rec_attrs : nat -> value -> sres (list attr * nsmap).
  Variable left : nat -> value -> how -> how.
  Hypothesis Hrec : forall id v, moves (rec id v) (left id v).

  Lemma moves_user : forall (flat : bool) q id w,
    moves ((if flat then set_name None ;;; set_skip true else set_name (Some q) ;;; set_skip false) ;;; rec id w)
          (fun _ => left id w (if flat then Inside else Under (Some q))).
  Proof. intros [] q id w; [apply (moves_set' None true)|apply (moves_set' (Some q) false)]; apply Hrec. Qed.

  Lemma moves_field : forall ra self f v, moves (ser_field x rec ra self f v) (left_field x left ra self f v).
  Proof.
    intros ra self f v. unfold ser_field, left_field. destruct (ya_attribute _); [apply moves_leaves; lgo|]. destruct (ya_text _).
    { apply moves_leaves. destruct (f_ty f) as [[[]|]|[[]|]|b|b]; lgo; destruct v as [t| | | | |[[t| | | | | | | |]|]| | |]; lgo. }
    rewrite fcond_left_out, Bool.negb_involutive. destruct (left_out x self v f true); [apply moves_leaves; lgo|]. destruct (ya_cdata _).
    { apply moves_leaves. destruct (f_ty f) as [[[]|]|b|b|b]; lgo. destruct v; lgo. }
    cbn [orb].
    destruct (f_ty f) as [[s|id]|[s|id]|[s|id]|[s|id]];
      try (apply moves_leaves; solve [auto with leaves | destruct v as [| | | | |[[]|]| | |]; auto with leaves]).
    - apply moves_user.
    - destruct v as [| | | | |[w|]| | |]; try apply moves_stuck; [apply moves_user|apply moves_leaves, leaves_ret].
    - destruct v as [| | | | | |l| |]; try apply moves_stuck.
      apply (moves_smap _ _ (fun w _ => left id w (if ya_flatten (f_attrs f) then Inside else Under (Some (field_qname ra f))))). intros w. apply moves_user.
  Qed.
  Lemma moves_fields : forall ra self fs vs, moves (ser_fields x rec ra self fs vs) (left_fields x left ra self fs vs).
  Proof.
    intros ra self fs. induction fs as [|f fs IH]; intros [|v vs]; cbn [ser_fields left_fields]; try apply moves_stuck; [apply moves_leaves; lgo|].
    apply (moves_bind _ _ _ _ (left_field x left ra self f v)); [apply moves_field|intros _; apply IH].
  Qed.

  Lemma moves_named_field : forall ra f v, moves (ser_named_field x rec ra f v) (left_named_field left ra f v).
  Proof.
    intros ra f v. unfold ser_named_field, left_named_field.
    destruct (f_ty f) as [[s|id]|b|[s|id]|b].
    - apply moves_leaves, leaves_one.
    - apply (moves_set (Some (field_qname ra f)) false), Hrec.
    - destruct v; try apply moves_stuck; apply moves_leaves; lgo.
    - destruct v as [| | | | | |l| |]; try apply moves_stuck.
      eapply moves_fun; [apply (moves_smap _ _ (fun w _ => Under (Some (field_qname ra f))))|].
      + intros w. apply (moves_set (Some (field_qname ra f)) false _ (fun h => h)). apply moves_leaves. unfold ser_item. destruct s; lgo.
      + intros h. cbn beta. destruct l as [|w l]; [reflexivity|]. cbn [fold_left]. induction l as [|u l IH]; [reflexivity|exact IH].
    - destruct v as [| | | | | |l| |]; try apply moves_stuck.
      apply (moves_smap _ _ (fun w _ => left id w (Under (Some (field_qname ra f))))). intros w.
      apply (moves_set (Some (field_qname ra f)) false), Hrec.
    - destruct v; try apply moves_stuck; apply moves_leaves; lgo.
  Qed.
  Lemma moves_named_fields : forall ra fs vs, moves (ser_named_fields x rec ra fs vs) (left_named_fields left ra fs vs).
  Proof.
    intros ra fs. induction fs as [|f fs IH]; intros [|v vs]; cbn [ser_named_fields left_named_fields]; try apply moves_stuck; [apply moves_leaves; lgo|].
    apply (moves_bind _ _ _ _ (left_named_field left ra f v)); [apply moves_named_field|intros _; apply IH].
  Qed.

  Lemma moves_item : forall q b v, moves (write_item x rec q b v) (left_item left b v).
  Proof.
    intros q b v. unfold write_item. apply moves_after; [lgo|intros _]. apply moves_before; [|lgo].
    destruct b as [s|id].
    - destruct s; cbn [left_item]; try (apply (moves_set None true _ (fun h => h)); apply moves_leaves; cbn [ser_item]; lgo).
      destruct v; try apply moves_stuck. apply moves_leaves; lgo.
    - cbn [left_item ser_item]. apply (moves_set None true), Hrec.
  Qed.
  Lemma moves_payload : forall q fl t v, moves (ser_payload x rec q fl t v) (left_payload left fl t v).
  Proof.
    intros q fl t v. unfold ser_payload, left_payload. destruct t as [[s|id]|b|b|b].
    - apply moves_leaves, leaves_one.
    - destruct fl; [apply Hrec|]. apply (moves_item q (BUser id) v).
    - destruct v as [| | | | |[w|]| | |]; try apply moves_stuck; [apply moves_item|apply moves_leaves; lgo].
    - destruct v as [| | | | | |l| |]; try apply moves_stuck. apply (moves_smap _ _ (left_item left b)). intros w. apply moves_item.
    - apply moves_stuck.
  Qed.

  Lemma moves_body : forall id v, moves (ser_body x E rec rec_attrs id v) (left_type x E left id v).
  Proof.
    intros id v. unfold ser_body, left_type. destruct (nth_error E id) as [td|]; [|apply moves_stuck].
    destruct (t_body td) as [fs|vars d|k] eqn:Hb.
    - unfold ser_derived. apply moves_after; [lgo|intros skip]. apply moves_after.
      { destruct (_ && _)%bool; [|lgo]. apply leaves_bind; [lgo|intros o]. apply leaves_bind; [lgo|intros [[own child] cns]]. lgo. }
      intros _. apply moves_before; [|intros _; destruct (_ && _)%bool; lgo]. unfold inspector. rewrite Hb. destruct v as [| | | | | | |vs|]; try apply moves_stuck.
      apply moves_fields.
    - unfold ser_derived. apply moves_after; [lgo|intros skip]. apply moves_after.
      { destruct (_ && _)%bool; [|lgo]. apply leaves_bind; [lgo|intros o]. apply leaves_bind; [lgo|intros [[own child] cns]]. lgo. }
      intros _. apply moves_before; [|intros _; destruct (_ && _)%bool; lgo]. unfold inspector. rewrite Hb. destruct v as [| | | | | | | |i l]; try apply moves_stuck.
      destruct (nth_error vars i) as [vr|]; [|apply moves_stuck]. unfold ser_variant.
      destruct (v_body vr) as [|fl t|fs].
      + destruct l; [|apply moves_stuck]. apply moves_leaves. destruct (ya_tag _); lgo.
      + destruct l as [|w [|]]; try apply moves_stuck. apply moves_payload.
      + apply moves_named_fields.
    - apply moves_leaves. unfold ser_prim. apply leaves_bind; [lgo|intros o]. apply leaves_bind; [lgo|intros skip].
      apply leaves_bind; [destruct skip; lgo|intros _]. apply leaves_bind; [lgo|intros t]. apply leaves_bind; [lgo|intros _]. destruct skip; lgo.
  Qed.
End Leftover.

Lemma moves_all : forall x E n id v, moves (fst (ser_all x E n) id v) (left_all x E n id v).
Proof.
  intros x E n. induction n as [|n IH]; intros id v; cbn [ser_all left_all fst]; [apply moves_stuck|]. apply moves_body. exact IH.
Qed.
Lemma ser_leftover : forall x E id v, moves (ser x E id v) (leftover x E id v).
Proof. intros x E id v. unfold ser, leftover. rewrite vdepth_height. apply moves_all. Qed.

Lemma reuse_in_turn : forall x E jobs w,
  match in_turn x E jobs (how_of w) with
  | Some ts => exists w', one_by_one x E jobs (fun _ => false) w = (SOk tt, w') /\ w_evs w' = w_evs w ++ flat_map wtree ts
  | None => forall w', one_by_one x E jobs (fun _ => false) w <> (SOk tt, w')
  end.
Proof.
  intros x E jobs. change (fun _ : nat => false) with never. induction jobs as [|[id v] jobs IH]; intros w; cbn [in_turn].
  - exists w. split; [reflexivity|]. cbn [flat_map]. symmetry. apply app_nil_r.
  - unfold one_by_one. cbn [smap fst snd]. fold (one_by_one x E jobs). unfold sbind at 1 2.
    pose proof (ser_agrees x E never (covers_never E) id v (how_of w) w eq_refl) as Ha.
    pose proof (ser_leftover x E id v never w tt) as Hl.
    destruct (encode x E id v (how_of w)) as [ts|]; cbn [omap oapp] in *.
    + destruct (writes_forest ts w) as (w1 & H1 & H2 & H3). rewrite H1 in Ha.
      destruct (ser x E id v never w) as [[[]|m|] w2]; destruct Ha as [Hc Hr]; cbn in Hc, Hr; try tauto.
      specialize (Hl w2 eq_refl). unfold core in Hc. injection Hc as Hc _ _.
      specialize (IH w2). rewrite Hl in IH. destruct (in_turn x E jobs _) as [us|]; [|exact IH].
      destruct IH as (w3 & H4 & H5). exists w3. split; [exact H4|]. rewrite H5, Hc, H3, flat_map_app, app_assoc. reflexivity.
    + destruct (ser x E id v never w) as [[[]|m|] w2]; cbn [fst] in Ha; try congruence; intros w' H; discriminate H.
Qed.

Lemma reuse_clean : forall x E js p ls, alone x E (js ++ [p]) ls ->
  (forall id v, In (id, v) js -> leftover x E id v (Under None) = Under None) ->
  exists w, one_by_one x E (js ++ [p]) (fun _ => false) w_init = (SOk tt, w) /\ w_evs w = concat ls.
Proof.
  intros x E js p ls Ha Hl. pose proof (reuse_in_turn x E (js ++ [p]) w_init) as H. change (how_of w_init) with (Under None) in H.
  assert (Hx : exists ts, in_turn x E (js ++ [p]) (Under None) = Some ts /\ flat_map wtree ts = concat ls).
  { clear H. revert ls Ha. induction js as [|[id v] js IH]; intros ls Ha; unfold alone in Ha; cbn [app] in Ha; inversion Ha as [|? l ? ls' H1 H2 Hx Hy]; subst.
    - inversion H2; subst. destruct p as [id v]. cbn [app in_turn fst snd] in *. pose proof (ser_events_encode x E id v) as He.
      destruct (encode x E id v (Under None)) as [ts|]; [|exfalso; exact (He l H1)]. exists (ts ++ []). split; [reflexivity|].
      cbn [concat]. rewrite !app_nil_r. congruence.
    - cbn [fst snd] in H1. pose proof (ser_events_encode x E id v) as He. cbn [app in_turn].
      destruct (encode x E id v (Under None)) as [ts|]; [|exfalso; exact (He l H1)]. rewrite (Hl id v (or_introl eq_refl)).
      destruct (IH (fun i u Hu => Hl i u (or_intror Hu)) ls' H2) as (us & H3 & H4). exists (ts ++ us). rewrite H3. split; [reflexivity|].
      cbn [concat]. rewrite flat_map_app, H4. f_equal. congruence. }
  destruct Hx as (ts & H1 & H2). rewrite H1 in H. destruct H as (w & H3 & H4). exists w. split; [exact H3|]. rewrite H4. exact H2.
Qed.
