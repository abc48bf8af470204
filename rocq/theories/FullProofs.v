(** * Writers that take a limited number of bytes: proofs (C74). *)
From Verif Require Import Str Num Xml XmlText Schema Ser SpecSer SpecFull EncProofs SerProofs.
Open Scope list_scope.

(** ** Runs on a writer that fails from some call on, beside runs on one that
    never does *)
Section Full.
  Variable ko : option nat.
  Variable sched : nat -> bool.
  Hypothesis Hsched : forall c, sched c = match ko with Some k => Nat.leb k c | None => false end.
  Definition cut (l : list wevent) : list wevent := match ko with Some k => firstn k l | None => l end.
  Definition beyond (n : nat) : Prop := match ko with Some k => k <= n | None => False end.

  Definition sim (w1 w2 : wstate) : Prop :=
    w_stack w1 = w_stack w2 /\ w_calls w1 = w_calls w2 /\ w_skip w1 = w_skip w2 /\ w_name w1 = w_name w2 /\
    w_calls w2 = List.length (w_evs w2) /\ w_evs w1 = cut (w_evs w2).
  Definition grows {A} (p : sm A) : Prop := forall w, exists l, w_evs (snd (p never w)) = w_evs w ++ l.
  Definition both {A} (p : sm A) : Prop :=
    grows p /\ forall w1 w2, sim w1 w2 ->
    match p sched w1, p never w2 with
    | (SOk a, w1'), (SOk b, w2') => a = b /\ sim w1' w2'
    | (SErr _, w1'), (SOk _, w2') => w_evs w1' = cut (w_evs w2') /\ beyond (List.length (w_evs w2'))
    | (SErr _, w1'), (SErr _, w2') => w_evs w1' = cut (w_evs w2')
    | (SErr _, _), (SStuck, _) => True
    | (SStuck, _), (SStuck, _) => True
    | _, _ => False
    end.

  Lemma cut_more : forall l l', beyond (List.length l) -> cut (l ++ l') = cut l.
  Proof.
    intros l l' H. unfold cut, beyond in *. destruct ko as [k|]; [|contradiction]. rewrite firstn_app.
    replace (k - List.length l) with 0 by lia. cbn [firstn]. apply app_nil_r.
  Qed.
  Lemma beyond_more : forall n m, beyond n -> n <= m -> beyond m.
  Proof. unfold beyond. intros n m H Hm. destruct ko; [lia|exact H]. Qed.
  Lemma not_yet : forall c l, sched c = false -> List.length l <= S c -> cut l = l.
  Proof.
    intros c l H Hl. rewrite Hsched in H. unfold cut. destruct ko as [k|]; [|reflexivity]. apply Nat.leb_gt in H. apply firstn_all2. lia.
  Qed.
  Lemma failing : forall c, sched c = true -> beyond c.
  Proof. intros c H. rewrite Hsched in H. unfold beyond. destruct ko; [apply Nat.leb_le; exact H|discriminate H]. Qed.

  Lemma grows_same : forall A (p : sm A), (forall w, w_evs (snd (p never w)) = w_evs w) -> grows p.
  Proof. intros A p H w. exists []. rewrite H, app_nil_r. reflexivity. Qed.
  Lemma both_ret : forall A (a : A), both (sret a).
  Proof. intros A a. split; [apply grows_same; reflexivity|]. intros w1 w2 H. cbn. split; [reflexivity|exact H]. Qed.
  Lemma both_stuck : forall A, both (@sstuck A).
  Proof. intros A. split; [apply grows_same; reflexivity|]. intros w1 w2 H. exact I. Qed.
  Lemma both_lift : forall A (r : sres A), both (slift r).
  Proof.
    intros A r. split; [apply grows_same; reflexivity|]. intros w1 w2 H. unfold slift. destruct r; [split; [reflexivity|exact H]| |exact I].
    destruct H as (_ & _ & _ & _ & _ & H). exact H.
  Qed.
  Lemma both_opt : forall A (o : option A), both (of_opt o).
  Proof. intros A [a|]; [apply both_ret|apply both_stuck]. Qed.
  Lemma both_write : forall e, both (write e).
  Proof.
    intros e. split.
    - intros w. unfold write, never. destruct (emit_check (w_stack w) e) as [st []]; cbn [snd w_evs]; [exists [e]; reflexivity|exists []; rewrite app_nil_r; reflexivity].
    - intros w1 w2 (H1 & H2 & H3 & H4 & H5 & H6). unfold write, never. rewrite H2. destruct (sched (w_calls w2)) eqn:Hs.
      + apply failing in Hs. destruct (emit_check (w_stack w2) e) as [st []]; cbn [w_evs]; [|exact H6].
        rewrite cut_more by (rewrite <- H5; exact Hs). split; [exact H6|]. apply (beyond_more (w_calls w2)); [exact Hs|]. rewrite app_length. lia.
      + rewrite H1. destruct (emit_check (w_stack w2) e) as [st []]; cbn [w_evs]; [|exact H6]. split; [reflexivity|].
        unfold sim. cbn [w_stack w_calls w_skip w_name w_evs]. rewrite app_length. cbn [List.length]. repeat (split; [auto; lia|]).
        rewrite (not_yet (w_calls w2)); [|exact Hs|rewrite app_length; cbn [List.length]; lia]. rewrite H6.
        rewrite (not_yet (w_calls w2)); [reflexivity|exact Hs|lia].
  Qed.
  Lemma both_swallow : forall t, both (swallow (write (WChars t))).
  Proof.
    intros t. split.
    - intros w. exists [WChars t]. reflexivity.
    - intros w1 w2 H. pose proof H as (H1 & H2 & H3 & H4 & H5 & H6). destruct (both_write (WChars t)) as [_ Hw]. specialize (Hw w1 w2 H).
      unfold swallow. unfold write, never in *. cbn [emit_check] in *. destruct (sched (w_calls w1)) eqn:Hs; [|exact Hw].
      split; [reflexivity|]. destruct Hw as [Hw _]. unfold sim. cbn [w_stack w_calls w_skip w_name w_evs] in *. rewrite app_length. cbn [List.length].
      repeat (split; [auto; lia|]). exact Hw.
  Qed.
  Lemma both_bind : forall A B (p : sm A) (f : A -> sm B), both p -> (forall a, both (f a)) -> both (sbind p f).
  Proof.
    intros A B p f [Gp Hp] Hf. split.
    - intros w. unfold sbind. destruct (Gp w) as [l Hl]. destruct (p never w) as [[a|m|] w']; cbn [snd] in *; [|exists l; exact Hl|exists l; exact Hl].
      destruct (proj1 (Hf a) w') as [l' Hl']. exists (l ++ l'). rewrite Hl', Hl, app_assoc. reflexivity.
    - intros w1 w2 H. specialize (Hp w1 w2 H). unfold sbind.
      destruct (p sched w1) as [[a|m|] w1'], (p never w2) as [[b|m'|] w2']; try contradiction; try exact Hp.
      + destruct Hp as [<- Hs]. exact (proj2 (Hf a) w1' w2' Hs).
      + destruct Hp as [He Hb]. destruct (proj1 (Hf b) w2') as [l Hl]. destruct (f b never w2') as [[b'|m'|] w2'']; cbn [snd] in Hl; try exact I;
          rewrite Hl, (cut_more _ l Hb); [split; [exact He|]|exact He]. apply (beyond_more (List.length (w_evs w2'))); [exact Hb|]. rewrite app_length. lia.
  Qed.
  Lemma both_err : forall p m, both p -> both (with_err p m).
  Proof.
    intros p m [Gp Hp]. split.
    - intros w. destruct (Gp w) as [l Hl]. exists l. unfold with_err. destruct (p never w) as [[a|m'|] w']; exact Hl.
    - intros w1 w2 H. specialize (Hp w1 w2 H). unfold with_err. destruct (p sched w1) as [[a|m1|] w1'], (p never w2) as [[b|m'|] w2']; exact Hp.
  Qed.
  Lemma both_set_skip : forall b, both (set_skip b).
  Proof. intros b. split; [apply grows_same; reflexivity|]. intros w1 w2 (H1 & H2 & H3 & H4 & H5 & H6). cbn. split; [reflexivity|]. unfold sim. cbn. auto 8. Qed.
  Lemma both_set_name : forall o, both (set_name o).
  Proof. intros b. split; [apply grows_same; reflexivity|]. intros w1 w2 (H1 & H2 & H3 & H4 & H5 & H6). cbn. split; [reflexivity|]. unfold sim. cbn. auto 8. Qed.
  Lemma both_get_skip : both get_skip.
  Proof. split; [apply grows_same; reflexivity|]. intros w1 w2 H. cbn. split; [|exact H]. destruct H as (_ & _ & H & _). exact H. Qed.
  Lemma both_get_name : both get_name.
  Proof. split; [apply grows_same; reflexivity|]. intros w1 w2 H. cbn. split; [|exact H]. destruct H as (_ & _ & _ & H & _). exact H. Qed.
  Lemma both_smap : forall A (f : A -> sm unit) l, (forall a, both (f a)) -> both (smap f l).
  Proof. intros A f l H. induction l as [|a l IH]; cbn [smap]; [apply both_ret|]. apply both_bind; [apply H|intros _; exact IH]. Qed.

  Hint Resolve both_ret both_stuck both_lift both_opt both_write both_swallow both_err both_set_skip both_set_name both_get_skip both_get_name both_smap : both.
  Ltac go := repeat (apply both_bind; [|intros]); auto with both.

  Variable x : ext.
  Variable E : env.
  Section Body.
    Variable rec : nat -> value -> sm unit.
    Variable rec_attrs : nat -> value -> sres (list attr * nsmap).
    Hypothesis Hrec : forall id v, both (rec id v).

    Lemma both_enclose : forall q t, both (enclose q t).
    Proof. intros q t. unfold enclose. go. Qed.
    Hint Resolve both_enclose Hrec : both.
    Lemma both_item : forall b v, both (ser_item x rec b v).
    Proof. intros [[]|id] v; cbn [ser_item]; go. Qed.
    Hint Resolve both_item : both.
    Lemma both_one : forall q s v, both (sbind (of_opt (show_simple x s v)) (fun t => enclose q t)).
    Proof. intros q s v. go. Qed.
    Hint Resolve both_one : both.
    Lemma both_field : forall ra self f v, both (ser_field x rec ra self f v).
    Proof.
      intros ra self f v. unfold ser_field. destruct (ya_attribute _); [go|]. destruct (ya_text _).
      { destruct (f_ty f) as [[[]|]|[[]|]|b|b]; go; destruct v as [t| | | | |[[t| | | | | | | |]|]| | |]; go. }
      destruct (negb _); [go|]. destruct (ya_cdata _).
      { destruct (f_ty f) as [[[]|]|b|b|b]; go. destruct v; go. }
      assert (Hu : forall id w, both (sbind (if ya_flatten (f_attrs f) then sbind (set_name None) (fun _ => set_skip true)
                                            else sbind (set_name (Some (field_qname ra f))) (fun _ => set_skip false)) (fun _ => rec id w))).
      { intros id w. apply both_bind; [destruct (ya_flatten _); go|intros _; apply Hrec]. }
      destruct (f_ty f) as [[s|id]|[s|id]|[s|id]|[s|id]]; auto with both; destruct v as [| | | | |[[]|]| | |]; auto with both.
    Qed.
    Lemma both_fields : forall ra self fs vs, both (ser_fields x rec ra self fs vs).
    Proof.
      intros ra self. induction fs as [|f fs IH]; intros [|v vs]; cbn [ser_fields]; auto with both. apply both_bind; [apply both_field|intros _; apply IH].
    Qed.
    Lemma both_named_field : forall ra f v, both (ser_named_field x rec ra f v).
    Proof.
      intros ra f v. unfold ser_named_field. destruct (f_ty f) as [[s|id]|b|b|b]; [go|go| | |]; destruct v; auto with both. apply both_smap. intros w. go.
    Qed.
    Lemma both_named_fields : forall ra fs vs, both (ser_named_fields x rec ra fs vs).
    Proof.
      intros ra. induction fs as [|f fs IH]; intros [|v vs]; cbn [ser_named_fields]; auto with both. apply both_bind; [apply both_named_field|intros _; apply IH].
    Qed.
    Lemma both_write_item : forall q b v, both (write_item x rec q b v).
    Proof.
      intros q b v. unfold write_item. apply both_bind; [go|intros _]. apply both_bind; [|intros _; go].
      destruct b as [[]|id]; [destruct v; go| | | |]; go.
    Qed.
    Lemma both_payload : forall q fl t v, both (ser_payload x rec q fl t v).
    Proof.
      intros q fl t v. unfold ser_payload. destruct t as [[s|id]|b|b|b]; [go|destruct fl; [go|apply both_write_item]| | |].
      - destruct v as [| | | | |[w|]| | |]; auto with both. apply both_write_item.
      - destruct v; auto with both. apply both_smap. intros w. apply both_write_item.
      - destruct v; auto with both.
    Qed.
    Lemma both_variant : forall ra vr l, both (ser_variant x rec ra vr l).
    Proof.
      intros ra vr l. unfold ser_variant. destruct (v_body vr) as [|fl t|fs].
      - destruct l; [|auto with both]. destruct (ya_tag ra); auto with both.
      - destruct l as [|v [|w l]]; auto with both. apply both_payload.
      - apply both_named_fields.
    Qed.
    Lemma both_inspector : forall td v, both (inspector x rec td v).
    Proof.
      intros td v. unfold inspector. destruct (t_body td) as [fs|vars d|k]; [destruct v|destruct v as [| | | | | | | |i l]|]; auto with both; [apply both_fields|].
      destruct (nth_error vars i); [apply both_variant|auto with both].
    Qed.
    Lemma both_derived : forall td v, both (ser_derived x rec rec_attrs td v).
    Proof.
      intros td v. unfold ser_derived. apply both_bind; [go|intros skip]. apply both_bind.
      - destruct (_ && _)%bool; [|go]. apply both_bind; [go|intros o]. apply both_bind; [go|intros [[own child] cns]]. go.
      - intros _. apply both_bind; [apply both_inspector|]. intros _. destruct (_ && _)%bool; go.
    Qed.
    Lemma both_prim : forall td k v, both (ser_prim x td k v).
    Proof.
      intros td k v. unfold ser_prim. apply both_bind; [go|intros o]. apply both_bind; [go|intros skip].
      apply both_bind; [destruct skip; go|intros _]. apply both_bind; [go|intros t]. apply both_bind; [go|intros _]. destruct skip; go.
    Qed.
    Lemma both_body : forall id v, both (ser_body x E rec rec_attrs id v).
    Proof.
      intros id v. unfold ser_body. destruct (nth_error E id) as [td|]; [|go]. destruct (t_body td); [apply both_derived|apply both_derived|apply both_prim].
    Qed.
  End Body.
  Lemma both_all : forall fuel id v, both (fst (ser_all x E fuel) id v).
  Proof. induction fuel as [|fuel IH]; intros id v; cbn [ser_all fst]; [apply both_stuck|]. apply both_body. exact IH. Qed.

  Lemma full_run : forall id v l, ser_events x E id v = SOk l -> exists r w, ser x E id v sched w_init = (r, w) /\ w_evs w = cut l /\
    (r = SOk tt /\ w_calls w = List.length l \/ exists m, r = SErr m /\ beyond (List.length l)).
  Proof.
    intros id v l Hl. destruct (both_all (S (vdepth v)) id v) as [_ H]. fold (ser x E id v) in H. unfold ser_events in Hl. change (fun _ : nat => false) with never in Hl.
    specialize (H w_init w_init). destruct (ser x E id v never w_init) as [[[]|m|] w2]; inversion Hl; subst.
    assert (H0 : sim w_init w_init) by (unfold sim; cbn; repeat split; unfold cut; destruct ko as [[|]|]; reflexivity). specialize (H H0).
    destruct (ser x E id v sched w_init) as [[[]|m|] w1]; [| |contradiction].
    - destruct H as [_ (H1 & H2 & _ & _ & H5 & H6)]. exists (SOk tt), w1. split; [reflexivity|]. split; [exact H6|]. left. split; [reflexivity|congruence].
    - destruct H as [H1 H2]. exists (SErr m), w1. split; [reflexivity|]. split; [exact H1|]. right. exists m. split; [reflexivity|exact H2].
  Qed.
End Full.

(** ** The text of the first events *)
Lemma sassoc : forall a b c, ((a +++ b) +++ c = a +++ (b +++ c))%string.
Proof. induction a as [|d a IH]; intros b c; [reflexivity|]. cbn [String.append]. rewrite IH. reflexivity. Qed.
Lemma slength : forall a b, String.length (a +++ b) = String.length a + String.length b.
Proof. induction a as [|c a IH]; intros b; [reflexivity|]. cbn [String.append String.length]. rewrite IH. reflexivity. Qed.
Lemma from_prefix : forall c a b st, exists r, emit_from c st (a ++ b) = (emit_from c st a +++ r)%string.
Proof.
  intros c. induction a as [|e a IH]; intros b st; [exists (emit_from c st b); reflexivity|]. cbn [app emit_from].
  destruct (emit1 c st e) as [t st']. destruct (IH b st') as [r ->]. exists r. rewrite sassoc. reflexivity.
Qed.
Lemma text_prefix : forall c a b, exists r, emit_text c (a ++ b) = (emit_text c a +++ r)%string.
Proof.
  intros c [|e a] b; [exists (emit_text c b); reflexivity|]. cbn [app]. unfold emit_text. destruct (from_prefix c (e :: a) b (em0 (ec_decl c))) as [r Hr].
  cbn [app] in Hr. rewrite Hr. exists r. rewrite sassoc. reflexivity.
Qed.
Lemma text_longer : forall c l i j, i <= j -> String.length (emit_text c (firstn i l)) <= String.length (emit_text c (firstn j l)).
Proof.
  intros c l i j H. replace (firstn i l) with (firstn i (firstn j l)) by (rewrite firstn_firstn; f_equal; lia).
  destruct (text_prefix c (firstn i (firstn j l)) (skipn i (firstn j l))) as [r Hr]. rewrite firstn_skipn in Hr. rewrite Hr, slength. lia.
Qed.

(** The first call that fails. *)
Lemma first_full : forall c n l, n < String.length (emit_text (econf_of c) l) ->
  exists k, k < List.length l /\ (forall j, full_at c n l j = Nat.leb k j).
Proof.
  intros c n l H. set (f := full_at c n l).
  assert (Hm : forall i j, i <= j -> f i = true -> f j = true).
  { intros i j Hij Hi. unfold f, full_at in *. apply Nat.ltb_lt in Hi. apply Nat.ltb_lt. pose proof (text_longer (econf_of c) l (S i) (S j)). lia. }
  assert (Hx : forall m, (exists k, k < m /\ f k = true /\ forall j, j < k -> f j = false) \/ forall j, j < m -> f j = false).
  { induction m as [|m [(k & H1 & H2)|IH]]; [right; intros j Hj; lia|left; exists k; split; [lia|exact H2]|].
    destruct (f m) eqn:Hf; [left; exists m; split; [lia|]; split; assumption|]. right. intros j Hj. destruct (Nat.eq_dec j m) as [->|]; [exact Hf|]. apply IH. lia. }
  assert (Hl : l <> []) by (intros ->; cbn in H; lia).
  destruct (Hx (List.length l)) as [(k & H1 & H2 & H3)|Hn].
  - exists k. split; [exact H1|]. intros j. destruct (Nat.leb k j) eqn:Hj; [apply Nat.leb_le in Hj; apply (Hm k); assumption|]. apply Nat.leb_gt in Hj. apply H3. exact Hj.
  - exfalso. destruct l as [|e l]; [apply Hl; reflexivity|]. specialize (Hn (List.length l) (Nat.lt_succ_diag_r _)). unfold f, full_at in Hn.
    apply Nat.ltb_ge in Hn. rewrite firstn_all2 in Hn by (cbn [List.length]; lia). lia.
Qed.
Lemma never_full : forall c n l, String.length (emit_text (econf_of c) l) <= n -> forall j, full_at c n l j = false.
Proof.
  intros c n l H j. apply Nat.ltb_ge. pose proof (text_longer (econf_of c) l (S j) (Nat.max (S j) (List.length l)) (Nat.le_max_l _ _)) as H1.
  rewrite (@firstn_all2 _ (Nat.max (S j) (List.length l)) l) in H1 by lia. lia.
Qed.

Lemma text_events : forall x E c id v t, to_string_with_config x E c id v = SOk t -> exists l, ser_events x E id v = SOk l /\ t = emit_text (econf_of c) l.
Proof. intros x E c id v t H. unfold to_string_with_config in H. destruct (ser_events x E id v) as [l| |]; inversion H. exists l. split; reflexivity. Qed.

(** What arrives. *)
Lemma full_bytes : forall x E c id v t l n r w, to_string_with_config x E c id v = SOk t -> ser_events x E id v = SOk l ->
  ser x E id v (full_at c n l) w_init = (r, w) ->
  exists rest, l = w_evs w ++ rest /\ String.length (emit_text (econf_of c) (w_evs w)) <= n /\
    match rest with [] => True | e :: _ => n < String.length (emit_text (econf_of c) (w_evs w ++ [e])) end.
Proof.
  intros x E c id v t l n r w Ht Hl Hr. destruct (text_events _ _ _ _ _ _ Ht) as (l' & Hl' & ->). rewrite Hl in Hl'. inversion Hl'; subst l'. clear Hl'.
  destruct (Nat.le_gt_cases (String.length (emit_text (econf_of c) l)) n) as [Hn|Hn].
  - destruct (full_run None (full_at c n l) (never_full c n l Hn) x E id v l Hl) as (r' & w' & H1 & H2 & _). rewrite Hr in H1. inversion H1; subst. cbn [cut] in H2.
    exists []. rewrite H2, app_nil_r. split; [reflexivity|]. split; [exact Hn|exact I].
  - destruct (first_full c n l Hn) as (k & Hk & Hf). destruct (full_run (Some k) (full_at c n l) Hf x E id v l Hl) as (r' & w' & H1 & H2 & _).
    rewrite Hr in H1. inversion H1; subst. cbn [cut] in H2. exists (skipn k l). rewrite H2, firstn_skipn. split; [reflexivity|]. split.
    + destruct k as [|k]; [cbn; lia|]. specialize (Hf k). unfold full_at in Hf. replace (Nat.leb (S k) k) with false in Hf by (symmetry; apply Nat.leb_gt; lia).
      apply Nat.ltb_ge in Hf. exact Hf.
    + specialize (Hf k). rewrite Nat.leb_refl in Hf. unfold full_at in Hf. apply Nat.ltb_lt in Hf. destruct (skipn k l) as [|e rest] eqn:Hs; [exact I|].
      replace (firstn k l ++ [e]) with (firstn (S k) l); [exact Hf|]. rewrite <- (firstn_skipn k l) at 1. rewrite Hs. rewrite firstn_app.
      rewrite firstn_length_le by lia. rewrite firstn_firstn. replace (Nat.min (S k) k) with k by lia. replace (S k - k) with 1 by lia. reflexivity.
Qed.

Lemma full_enough : forall x E c id v t l n, to_string_with_config x E c id v = SOk t -> ser_events x E id v = SOk l -> String.length t <= n ->
  exists w, ser x E id v (full_at c n l) w_init = (SOk tt, w) /\ w_evs w = l.
Proof.
  intros x E c id v t l n Ht Hl Hn. destruct (text_events _ _ _ _ _ _ Ht) as (l' & Hl' & ->). rewrite Hl in Hl'. inversion Hl'; subst l'. clear Hl'.
  destruct (full_run None (full_at c n l) (never_full c n l Hn) x E id v l Hl) as (r' & w' & H1 & H2 & [[-> _]|(m & _ & [])]). exists w'. split; [exact H1|exact H2].
Qed.

(** Values whose last write is reported. *)
Lemma write_last : forall e sched w w', write e sched w = (SOk tt, w') -> sched (w_calls w) = false /\ w_calls w' = S (w_calls w).
Proof.
  intros e sched w w' H. unfold write in H. destruct (sched (w_calls w)); [discriminate H|]. destruct (emit_check (w_stack w) e) as [st []]; inversion H. split; reflexivity.
Qed.
Lemma err_last : forall e m sched w w', with_err (write e) m sched w = (SOk tt, w') -> sched (w_calls w) = false /\ w_calls w' = S (w_calls w).
Proof.
  intros e m sched w w' H. unfold with_err in H. destruct (write e sched w) as [[[]|m'|] w1] eqn:Hw; inversion H; subst. exact (write_last _ _ _ _ Hw).
Qed.
Lemma sbind_ok : forall A B (p : sm A) (f : A -> sm B) sched w b w', sbind p f sched w = (SOk b, w') -> exists a w1, p sched w = (SOk a, w1) /\ f a sched w1 = (SOk b, w').
Proof. intros A B p f sched w b w' H. unfold sbind in H. destruct (p sched w) as [[a|m|] w1]; try discriminate H. exists a, w1. split; [reflexivity|exact H]. Qed.
Lemma own_last : forall x E id td v sched w, nth_error E id = Some td -> own_element td -> ser x E id v sched w_init = (SOk tt, w) ->
  exists k, w_calls w = S k /\ sched k = false.
Proof.
  intros x E id td v sched w Htd Ho H. unfold ser in H. cbn [ser_all fst] in H. unfold ser_body in H. rewrite Htd in H. unfold own_element in Ho.
  assert (Hd : ya_flatten (t_attrs td) = false ->
    ser_derived x (fst (ser_all x E (vdepth v))) (snd (ser_all x E (vdepth v))) td v sched w_init = (SOk tt, w) -> exists k, w_calls w = S k /\ sched k = false).
  { intros Hf Hs. unfold ser_derived in Hs. apply sbind_ok in Hs. destruct Hs as (skip & w1 & Hg & Hs). inversion Hg; subst. rewrite Hf in Hs. cbn [negb andb w_skip w_init] in Hs.
    apply sbind_ok in Hs. destruct Hs as (u1 & w2 & _ & Hs). apply sbind_ok in Hs. destruct Hs as (u2 & w3 & _ & Hs).
    destruct (write_last _ _ _ _ Hs) as [H1 H2]. exists (w_calls w3). split; assumption. }
  destruct (t_body td) as [fs|vars d|k]; [exact (Hd Ho H)|exact (Hd Ho H)|].
  unfold ser_prim in H. apply sbind_ok in H. destruct H as (o & w1 & Hg & H). inversion Hg; subst. apply sbind_ok in H. destruct H as (skip & w1 & Hg' & H).
  inversion Hg'; subst. cbn [w_skip w_init] in H. do 3 (apply sbind_ok in H; destruct H as (? & ? & _ & H)).
  destruct (err_last _ _ _ _ _ H) as [H1 H2]. eexists. split; [exact H2|exact H1].
Qed.
Lemma full_own : forall x E c id td v t l n, nth_error E id = Some td -> own_element td -> to_string_with_config x E c id v = SOk t -> ser_events x E id v = SOk l ->
  (fst (ser x E id v (full_at c n l) w_init) = SOk tt <-> String.length t <= n).
Proof.
  intros x E c id td v t l n Htd Ho Ht Hl. split.
  - intros H. destruct (Nat.le_gt_cases (String.length t) n) as [Hn|Hn]; [exact Hn|exfalso].
    destruct (text_events _ _ _ _ _ _ Ht) as (l' & Hl' & ->). rewrite Hl in Hl'. inversion Hl'; subst l'. clear Hl'.
    destruct (first_full c n l Hn) as (k & Hk & Hf). destruct (full_run (Some k) (full_at c n l) Hf x E id v l Hl) as (r & w & H1 & _ & [[-> H2]|(m & -> & _)]);
      rewrite H1 in H; cbn [fst] in H; [|discriminate H].
    destruct (own_last x E id td v _ w Htd Ho H1) as (j & Hj & Hs). rewrite Hf in Hs. apply Nat.leb_gt in Hs. lia.
  - intros Hn. destruct (full_enough x E c id v t l n Ht Hl Hn) as (w & -> & _). reflexivity.
Qed.
Lemma full_reports : forall x E c id v t l n, reports_errors E -> to_string_with_config x E c id v = SOk t -> ser_events x E id v = SOk l ->
  (fst (ser x E id v (full_at c n l) w_init) = SOk tt <-> String.length t <= n).
Proof.
  intros x E c id v t l n HE Ht Hl. split.
  - intros H. destruct (Nat.le_gt_cases (String.length t) n) as [Hn|Hn]; [exact Hn|exfalso].
    destruct (text_events _ _ _ _ _ _ Ht) as (l' & Hl' & ->). rewrite Hl in Hl'. inversion Hl'; subst l'. clear Hl'.
    destruct (first_full c n l Hn) as (k & Hk & Hf). destruct (ser x E id v (full_at c n l) w_init) as [r w] eqn:Hr. cbn [fst] in H. subst r.
    destruct (ser_errors x E id v l (full_at c n l) HE Hl) as [_ He]. destruct (He k Hk) as (m & w' & Hx & _).
    + intros j Hj. rewrite Hf. apply Nat.leb_gt. exact Hj.
    + rewrite Hf. apply Nat.leb_refl.
    + rewrite Hr in Hx. discriminate Hx.
  - intros Hn. destruct (full_enough x E c id v t l n Ht Hl Hn) as (w & -> & _). reflexivity.
Qed.
