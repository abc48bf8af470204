(** * The generated deserializers on document trees: basic facts. *)
From Verif Require Import Str Num Xml XmlText Reader Schema De RunFacts SpecTree.
Open Scope list_scope.

(** ** Trees *)
Lemma node_ind' : forall P : node -> Prop,
  (forall s, P (Txt s)) ->
  (forall n a m ks, (forall k, In k ks -> P k) -> P (Elem n a m ks)) ->
  forall t, P t.
Proof.
  intros P Ht He. fix IH 1. intros [n a m ks|s]; [|apply Ht].
  apply He. induction ks as [|k ks IHk]; intros k' Hin; [destruct Hin|].
  destruct Hin as [<-|Hin]; [apply IH|apply IHk; assumption].
Qed.

Definition len (t : node) : nat := List.length (flat t).
Definition lens (ks : list node) : nat := List.length (flat_map flat ks).

Lemma lens_cons : forall k ks, lens (k :: ks) = len k + lens ks.
Proof. intros; unfold lens, len; simpl; rewrite app_length; reflexivity. Qed.
Lemma len_elem : forall n a m ks, len (Elem n a m ks) = lens ks + 2.
Proof. intros; unfold len, lens; simpl; rewrite app_length; simpl; lia. Qed.
Lemma len_pos : forall k, 1 <= len k.
Proof. intros [n a m ks|s]; [rewrite len_elem; lia|unfold len; simpl; lia]. Qed.
Lemma len_in : forall k ks, In k ks -> len k <= lens ks.
Proof.
  induction ks as [|k' ks IH]; intros Hin; [destruct Hin|]. rewrite lens_cons.
  destruct Hin as [<-|Hin]; [lia|]. apply IH in Hin. lia.
Qed.

Lemma flat_elem_app : forall n a m ks tail,
  flat (Elem n a m ks) ++ tail = EStart n a m :: flat_map flat ks ++ EEnd n :: tail.
Proof. intros; simpl. rewrite <- app_assoc. reflexivity. Qed.

(** ** Running *)
Lemma vrun_peek_ : forall A (K : event -> prog A) v,
  vrun (bind peek_ K) v =
  match vpeek v with Ok e => vrun (K e) v | Er m => (OErr m, v) end.
Proof. intros. simpl. destruct (vpeek v); reflexivity. Qed.

Lemma vrun_peek_ev : forall A (K : event -> prog A) d e r f,
  vrun (bind peek_ K) (VState d (e :: r) f) = vrun (K e) (VState d (e :: r) f).
Proof. reflexivity. Qed.

Lemma vrun_Peek_ev : forall A (K : res event -> prog A) d e r f,
  vrun (Peek K) (VState d (e :: r) f) = vrun (K (Ok e)) (VState d (e :: r) f).
Proof. reflexivity. Qed.

Lemma vrun_next_ev : forall A (K : event -> prog A) d d' e r f,
  bump d e = Some d' ->
  vrun (bind next_ K) (VState d (e :: r) f) = vrun (K e) (VState d' r f).
Proof. intros A K d d' e r f H. simpl. unfold vnext; simpl. rewrite H. reflexivity. Qed.

Lemma vrun_Next_ev : forall A (K : res event -> prog A) d d' e r f,
  bump d e = Some d' ->
  vrun (Next K) (VState d (e :: r) f) = vrun (K (Ok e)) (VState d' r f).
Proof. intros A K d d' e r f H. simpl. unfold vnext; simpl. rewrite H. reflexivity. Qed.

Lemma vrun_Depth : forall A (K : nat -> prog A) d r f,
  vrun (Depth K) (VState d r f) = vrun (K d) (VState d r f).
Proof. reflexivity. Qed.

(** ** The writer of unused events *)
Definition feed (u : uwriter) (e : event) : uwriter :=
  match u with
  | ULive stack evs =>
      match as_writer_event e with
      | None => u
      | Some w => let '(st', ok) := emit_check stack w in
                  if ok then ULive st' (evs ++ [w]) else UDead
      end
  | _ => u
  end.

Definition writable (e : event) : Prop := as_writer_event e <> None.

Lemma write_unused_feed : forall u e, writable e -> write_unused u e = Ret (feed u e).
Proof.
  intros u e H. unfold writable in H. destruct u; try reflexivity. simpl.
  destruct (as_writer_event e); [|congruence].
  destruct (emit_check stack w) as [st' ok]. reflexivity.
Qed.

Lemma flat_writable : forall t e, In e (flat t) -> writable e.
Proof.
  induction t using node_ind'; simpl; intros e Hin.
  - destruct Hin as [<-|[]]. discriminate.
  - destruct Hin as [<-|Hin]; [discriminate|].
    apply in_app_or in Hin. destruct Hin as [Hin|[<-|[]]]; [|discriminate].
    apply in_flat_map in Hin. destruct Hin as (k & Hk & He). eauto.
Qed.

(** ** Skipping *)
Lemma skip_node : forall t D f u m d tail fn, D <= d ->
  vrun (skip_loop (len t + S m) D write_unused u) (VState d (flat t ++ tail) fn) =
  vrun (skip_loop (S m) D write_unused (fold_left feed (flat t) u)) (VState d tail fn)
  /\ f = f :> nat.
Proof.
  intros t D f. induction t using node_ind'; intros u m' d tail fn HD; (split; [|reflexivity]).
  - change (len (Txt s) + S m') with (S (S m')).
    change (flat (Txt s) ++ tail) with (EChars s :: tail).
    cbn [skip_loop]. rewrite vrun_Depth.
    replace (Nat.leb D d) with true by (symmetry; apply Nat.leb_le; assumption).
    rewrite (vrun_next_ev _ _ d d) by reflexivity.
    rewrite write_unused_feed by discriminate. reflexivity.
  - rewrite flat_elem_app, len_elem.
    replace (lens ks + 2 + S m') with (S (lens ks + S (S m'))) by lia.
    cbn [skip_loop]. rewrite vrun_Depth.
    replace (Nat.leb D d) with true by (symmetry; apply Nat.leb_le; assumption).
    rewrite (vrun_next_ev _ _ d (S d)) by reflexivity.
    rewrite write_unused_feed by discriminate. cbn [bind].
    change (flat (Elem n a m ks)) with (EStart n a m :: flat_map flat ks ++ [EEnd n]).
    cbn [fold_left]. generalize (feed u (EStart n a m)) as u1.
    rename H into IH.
    assert (Hks : forall u1 q, 
      vrun (skip_loop (lens ks + S q) D write_unused u1) (VState (S d) (flat_map flat ks ++ EEnd n :: tail) fn) =
      vrun (skip_loop (S q) D write_unused (fold_left feed (flat_map flat ks) u1)) (VState (S d) (EEnd n :: tail) fn)).
    { induction ks as [|k ks IHks]; intros u1 q; [reflexivity|].
      rewrite lens_cons. cbn [flat_map]. rewrite <- app_assoc, fold_left_app.
      replace (len k + lens ks + S q) with (len k + S (lens ks + q)) by lia.
      destruct (IH k (or_introl eq_refl) u1 (lens ks + q) (S d) (flat_map flat ks ++ EEnd n :: tail) fn ltac:(lia)) as [-> _].
      replace (S (lens ks + q)) with (lens ks + S q) by lia.
      apply IHks. intros k' Hk'. apply IH. right; assumption. }
    intros u1. rewrite Hks, fold_left_app.
    cbn [skip_loop fold_left]. rewrite vrun_Depth.
    replace (Nat.leb D (S d)) with true by (symmetry; apply Nat.leb_le; lia).
    rewrite (vrun_next_ev _ _ (S d) d) by reflexivity.
    rewrite write_unused_feed by discriminate. reflexivity.
Qed.

Lemma skip_nodes : forall ks D u m d tail fn, D <= d ->
  vrun (skip_loop (lens ks + S m) D write_unused u) (VState d (flat_map flat ks ++ tail) fn) =
  vrun (skip_loop (S m) D write_unused (fold_left feed (flat_map flat ks) u)) (VState d tail fn).
Proof.
  induction ks as [|k ks IH]; intros D u m d tail fn HD; [reflexivity|].
  rewrite lens_cons. cbn [flat_map]. rewrite <- app_assoc, fold_left_app.
  replace (len k + lens ks + S m) with (len k + S (lens ks + m)) by lia.
  destruct (skip_node k D 0 u (lens ks + m) d (flat_map flat ks ++ tail) fn HD) as [-> _].
  replace (S (lens ks + m)) with (lens ks + S m) by lia.
  apply IH; assumption.
Qed.

Lemma skip_element_nodes : forall ks n u fuel d tail fn, lens ks + 2 <= fuel ->
  vrun (skip_element fuel write_unused u) (VState (S d) (flat_map flat ks ++ EEnd n :: tail) fn) =
  (OOk (fold_left feed (flat_map flat ks ++ [EEnd n]) u), VState d tail fn).
Proof.
  intros ks n u fuel d tail fn Hf. unfold skip_element. rewrite vrun_Depth.
  replace fuel with (lens ks + S (S (fuel - lens ks - 2))) by lia.
  rewrite skip_nodes by lia.
  cbn [skip_loop]. rewrite vrun_Depth.
  replace (Nat.leb (S d) (S d)) with true by (symmetry; apply Nat.leb_le; lia).
  rewrite (vrun_next_ev _ _ (S d) d) by reflexivity.
  rewrite write_unused_feed by discriminate. cbn [bind skip_loop]. rewrite vrun_Depth.
  replace (Nat.leb (S d) d) with false by (symmetry; apply Nat.leb_gt; lia).
  rewrite fold_left_app. reflexivity.
Qed.

(** ** Finding fields and variants *)
Lemma combine_seq_cons : forall A (a : A) l i,
  combine (seq i (List.length (a :: l))) (a :: l) = (i, a) :: combine (seq (S i) (List.length l)) l.
Proof. reflexivity. Qed.

Lemma find_field_for : forall ra fs n,
  find_field ra fs 0 (opt_default "" (n_ns n)) (n_local n) = field_for ra fs n.
Proof.
  intros ra fs n. unfold field_for, numbered. generalize 0 as i.
  induction fs as [|f fs IH]; intros i; [reflexivity|].
  rewrite combine_seq_cons. cbn [find find_field snd].
  replace ((is_elem_field f && String.eqb (field_ns ra f) (opt_default "" (n_ns n)) && String.eqb (field_local f) (n_local n))%bool)
    with ((negb (ya_attribute (f_attrs f)) && negb (ya_flatten (f_attrs f)) && label_eqb (flabel ra f) (elabel n))%bool).
  - destruct (negb (ya_attribute (f_attrs f)) && negb (ya_flatten (f_attrs f)) && label_eqb (flabel ra f) (elabel n))%bool; [reflexivity|apply IH].
  - unfold is_elem_field, label_eqb. rewrite andb_assoc. reflexivity.
Qed.

Lemma find_variant_for : forall vs s, find_variant vs 0 s = variant_for vs s.
Proof.
  intros vs s. unfold variant_for, numbered. generalize 0 as i.
  induction vs as [|v vs IH]; intros i; [reflexivity|].
  rewrite combine_seq_cons. cbn [find find_variant snd].
  destruct (v_body v) eqn:Hb; try apply IH;
  change (xml_element_name (v_attrs v) (v_label v)) with (variant_name v);
  destruct (String.eqb (variant_name v) s); try apply IH; rewrite Hb; reflexivity.
Qed.

Lemma numbered_in : forall A (l : list A) i a, In (i, a) (numbered l) -> nth_error l i = Some a.
Proof.
  intros A l. unfold numbered.
  assert (H : forall l j i (a : A), In (i, a) (combine (seq j (List.length l)) l) -> j <= i /\ nth_error l (i - j) = Some a).
  { clear l. induction l as [|b l IH]; intros j i a Hin; [destruct Hin|].
    rewrite combine_seq_cons in Hin. destruct Hin as [Heq|Hin].
    - inversion Heq; subst. split; [lia|]. rewrite Nat.sub_diag. reflexivity.
    - apply IH in Hin. destruct Hin as [H1 H2]. split; [lia|].
      replace (i - j) with (S (i - S j)) by lia. assumption. }
  intros i a Hin. apply H in Hin. rewrite Nat.sub_0_r in Hin. tauto.
Qed.

Lemma field_for_spec : forall ra fs n i f, field_for ra fs n = Some (i, f) ->
  nth_error fs i = Some f /\ ya_attribute (f_attrs f) = false /\ ya_flatten (f_attrs f) = false /\
  flabel ra f = elabel n.
Proof.
  intros ra fs n i f H. unfold field_for in H.
  destruct (find_some _ _ H) as [H1 H2]. simpl in H2.
  rewrite !andb_true_iff, !negb_true_iff in H2. destruct H2 as [[H2 H3] H4].
  split; [apply numbered_in; assumption|]. repeat split; auto.
  unfold label_eqb in H4. rewrite andb_true_iff, !String.eqb_eq in H4.
  destruct (flabel ra f), (elabel n); simpl in H4. destruct H4; congruence.
Qed.

(** ** Namespace checks *)
Lemma namespace_check_bad : forall ra n,
  namespace_check (ya_namespaces ra) (ya_prefix ra) (n_ns n) (n_local n) = bad_namespace ra n.
Proof.
  intros ra n. unfold namespace_check, bad_namespace.
  destruct (n_ns n); [|reflexivity]. destruct (ya_prefix ra); [|reflexivity].
  destruct (ns_get (ya_namespaces ra) s0); [|reflexivity].
  destruct (String.eqb s1 s); reflexivity.
Qed.

Lemma field_namespace_ok : forall ra fs n i f,
  field_for ra fs n = Some (i, f) -> n_ns n <> Some "" ->
  namespace_check (ya_namespaces ra) (ya_prefix (f_attrs f)) (n_ns n) (n_local n) = None.
Proof.
  intros ra fs n i f H Hn. apply field_for_spec in H. destruct H as (_ & _ & _ & Hl).
  unfold flabel, elabel in Hl. inversion Hl as [[H1 H2]]. clear Hl H2.
  unfold namespace_check, uri_of in *. destruct (n_ns n) as [u|]; [|reflexivity].
  destruct (ya_prefix (f_attrs f)) as [p|]; [|congruence].
  destruct (ns_get (ya_namespaces ra) p) as [v|]; [|congruence].
  subst v. rewrite String.eqb_refl. reflexivity.
Qed.

(** ** Slots *)
Definition slot_of (f : field) (l : list value) : slot :=
  match f_ty f with TVec _ => SMany l | _ => SOne (last_of l) end.

Fixpoint slots_from (i : nat) (fs : list field) (c : list (nat * value)) : list slot :=
  match fs with
  | [] => []
  | f :: r => slot_of f (given i c) :: slots_from (S i) r c
  end.
Definition slots (fs : list field) c := slots_from 0 fs c.

Lemma given_app : forall i a b, given i (a ++ b) = given i a ++ given i b.
Proof. intros; unfold given; rewrite filter_app, map_app; reflexivity. Qed.

Lemma last_of_snoc : forall l v, last_of (l ++ [v]) = Some v.
Proof.
  induction l as [|a l IH]; intros v; [reflexivity|].
  simpl. destruct (l ++ [v]) eqn:Hl; [destruct l; discriminate|]. rewrite <- Hl. apply IH.
Qed.

Lemma slots_init : forall fs, map (fun f => init_slot (f_ty f)) fs = slots fs [].
Proof.
  intros fs; unfold slots. generalize 0. induction fs as [|f fs IH]; intros i; [reflexivity|].
  simpl. rewrite (IH (S i)). reflexivity.
Qed.

Lemma given_one : forall i j v, given i [(j, v)] = if Nat.eqb j i then [v] else [].
Proof. intros; unfold given; simpl. destruct (Nat.eqb j i); reflexivity. Qed.

Lemma slots_from_other : forall fs i j c v, j < i ->
  slots_from i fs (c ++ [(j, v)]) = slots_from i fs c.
Proof.
  induction fs as [|f fs IH]; intros i j c v H; [reflexivity|].
  simpl. rewrite IH by lia. rewrite given_app, given_one.
  replace (Nat.eqb j i) with false by (symmetry; apply Nat.eqb_neq; lia).
  rewrite app_nil_r. reflexivity.
Qed.

Lemma put_slot_of : forall f l v, put_slot v (slot_of f l) = slot_of f (l ++ [v]).
Proof.
  intros f l v. unfold slot_of. destruct (f_ty f); simpl; rewrite ?last_of_snoc; reflexivity.
Qed.

Lemma slots_from_put : forall fs i j c v,
  upd j (put_slot v) (slots_from i fs c) = slots_from i fs (c ++ [(i + j, v)]).
Proof.
  induction fs as [|f fs IH]; intros i j c v; [destruct j; reflexivity|].
  cbn [slots_from]. destruct j as [|j]; cbn [upd].
  - rewrite put_slot_of. rewrite given_app, given_one.
    replace (Nat.eqb (i + 0) i) with true by (symmetry; apply Nat.eqb_eq; lia).
    f_equal. symmetry. apply slots_from_other. lia.
  - rewrite IH. replace (S i + j) with (i + S j) by lia. f_equal.
    rewrite given_app, given_one.
    replace (Nat.eqb (i + S j) i) with false by (symmetry; apply Nat.eqb_neq; lia).
    rewrite app_nil_r. reflexivity.
Qed.

Lemma slots_put : forall fs j c v,
  upd j (put_slot v) (slots fs c) = slots fs (c ++ [(j, v)]).
Proof. intros; apply (slots_from_put fs 0 j c v). Qed.

Lemma slots_set : forall fs j f c v, nth_error fs j = Some f ->
  (forall b, f_ty f <> TVec b) ->
  upd j (fun _ => SOne (Some v)) (slots fs c) = slots fs (c ++ [(j, v)]).
Proof.
  intros fs j f c v Hf Hv. rewrite <- slots_put. unfold slots.
  revert j Hf. generalize 0 as i. induction fs as [|g fs IH]; intros i j Hf; [destruct j; discriminate|].
  destruct j as [|j]; cbn [slots_from upd].
  - inversion Hf; subst. f_equal. unfold slot_of. destruct (f_ty f); try reflexivity.
    exfalso; eapply Hv; reflexivity.
  - f_equal. apply IH. assumption.
Qed.

Lemma slots_set_none : forall fs j f c, nth_error fs j = Some f ->
  (forall b, f_ty f <> TVec b) -> given j c = [] ->
  upd j (fun _ => SOne None) (slots fs c) = slots fs c.
Proof.
  intros fs j f c Hf Hv. unfold slots.
  assert (H : forall i, given (i + j) c = [] -> upd j (fun _ => SOne None) (slots_from i fs c) = slots_from i fs c).
  { revert j Hf. induction fs as [|g fs IH]; intros j Hf i Hg; [destruct j; discriminate|].
    destruct j as [|j]; cbn [slots_from upd].
    - inversion Hf; subst. f_equal. rewrite Nat.add_0_r in Hg. rewrite Hg.
      unfold slot_of. destruct (f_ty f); try reflexivity. exfalso; eapply Hv; reflexivity.
    - f_equal. apply IH; [assumption|]. rewrite <- Hg. f_equal. lia. }
  apply (H 0).
Qed.

(** Text fields. *)
Definition text_ok (f : field) : bool :=
  (ya_text (f_attrs f) &&
      match f_ty f with TBase (BSimple SString) | TOpt (BSimple SString) => true | _ => false end)%bool.

Definition text_from (i : nat) (fs : list field) : list nat :=
  map fst (filter (fun p => text_ok (snd p)) (combine (seq i (List.length fs)) fs)).

Lemma text_from_ge : forall fs i j, In j (text_from i fs) -> i <= j.
Proof.
  induction fs as [|f fs IH]; intros i j Hin; [destruct Hin|].
  unfold text_from in Hin. rewrite combine_seq_cons in Hin. cbn [filter snd] in Hin.
  destruct (text_ok f).
  - destruct Hin as [<-|Hin]; [simpl; lia|]. apply IH in Hin. lia.
  - apply IH in Hin. lia.
Qed.

Lemma given_none : forall i l, (forall p, In p l -> fst p <> i) -> given i l = [].
Proof.
  intros i l; induction l as [|p l IH]; intros H; [reflexivity|].
  unfold given in *; simpl. 
  replace (Nat.eqb (fst p) i) with false by (symmetry; apply Nat.eqb_neq; apply H; left; reflexivity).
  apply IH. intros q Hq. apply H. right; assumption.
Qed.

Lemma set_text_from : forall t fs i c, t <> "" ->
  set_text t fs (slots_from i fs c) =
  slots_from i fs (c ++ map (fun j => (j, VStr t)) (text_from i fs)).
Proof.
  intros t fs i c Ht. revert i c. induction fs as [|f fs IH]; intros i c; [reflexivity|].
  unfold text_from. rewrite combine_seq_cons. cbn [set_text slots_from filter snd].
  rewrite IH. fold (text_from (S i) fs).
  assert (Hge : given i (map (fun j => (j, VStr t)) (text_from (S i) fs)) = []).
  { apply given_none. intros p Hp. apply in_map_iff in Hp. destruct Hp as (j & <- & Hj).
    apply text_from_ge in Hj. simpl. lia. }
  destruct (text_ok f) eqn:Hx.
  - cbn [map fst]. fold (text_from (S i) fs).
    rewrite given_app.
    replace (given i ((i, VStr t) :: map (fun j => (j, VStr t)) (text_from (S i) fs))) with [VStr t].
    2:{ change ((i, VStr t) :: map (fun j => (j, VStr t)) (text_from (S i) fs))
          with ([(i, VStr t)] ++ map (fun j => (j, VStr t)) (text_from (S i) fs)).
        rewrite given_app, Hge, given_one, Nat.eqb_refl. reflexivity. }
    f_equal.
    + unfold set_text1, text_ok, slot_of in *. destruct (ya_text (f_attrs f)); [|discriminate].
      destruct (f_ty f) as [[[]|]|[[]|]|[]|[]]; try discriminate; rewrite ?last_of_snoc;
      [reflexivity|]. destruct t; [congruence|]. reflexivity.
    + change ((i, VStr t) :: map (fun j => (j, VStr t)) (text_from (S i) fs))
          with ([(i, VStr t)] ++ map (fun j => (j, VStr t)) (text_from (S i) fs)).
      rewrite app_assoc, <- IH, <- IH. rewrite slots_from_other by lia. reflexivity.
  - fold (text_from (S i) fs). rewrite given_app, Hge, app_nil_r. f_equal.
    unfold set_text1, text_ok in *. destruct (ya_text (f_attrs f)); [|reflexivity].
    destruct (f_ty f) as [[[]|]|[[]|]|[]|[]]; try discriminate; reflexivity.
Qed.

Lemma set_text_slots : forall t fs c, t <> "" ->
  set_text t fs (slots fs c) = slots fs (c ++ map (fun j => (j, VStr t)) (text_fields fs)).
Proof. intros; apply (set_text_from t fs 0 c); assumption. Qed.

(** Building. *)
Lemma build_slots : forall x tn fs c,
  build x tn fs (slots fs c) = fields_result x tn 0 fs c.
Proof.
  intros x tn fs c. unfold slots. generalize 0 as i.
  induction fs as [|f fs IH]; intros i; [reflexivity|].
  cbn [slots_from build fields_result].
  replace (build1 x tn f (slot_of f (given i c))) with (field_result x tn f (given i c)).
  - rewrite IH. destruct (field_result x tn f (given i c)); [|reflexivity].
    destruct (fields_result x tn (S i) fs c); reflexivity.
  - unfold build1, slot_of, field_result. destruct (f_ty f); try reflexivity.
Qed.
