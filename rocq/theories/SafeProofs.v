(** * C18: no panic, for every input. *)
From Verif Require Import Str Num Xml XmlText Reader Schema De RunFacts SpecReader SpecTree TreeFacts SpecSafe.
Open Scope list_scope.

(** ** The parser delivers nested sources *)
Lemma open_after_app : forall a b d, open_after d (a ++ b) =
  match open_after d a with Some d' => open_after d' b | None => None end.
Proof.
  induction a as [|e a IH]; intros b d; [reflexivity|]. cbn [app open_after].
  destruct e; auto. destruct d; auto.
Qed.

Definition pinv (st : pst) : Prop :=
  open_after 0 (p_out st) = Some (List.length (p_stack st)) /\
  List.length (p_names st) = List.length (p_stack st).

Lemma pinv_mode : forall st m, pinv st -> pinv (set_mode st m).
Proof. intros st m H; exact H. Qed.
Lemma pinv_fail : forall st m, pinv st -> pinv (pfail st m).
Proof. intros st m H; exact H. Qed.
Lemma pinv_end_raw : forall st m, pinv st -> pinv (end_raw st m).
Proof. intros st m H. unfold end_raw. destruct (unesc (p_raw st)); exact H. Qed.
Lemma pinv_flush : forall st m, pinv st -> pinv (flush st m).
Proof.
  intros st m H. unfold flush. destruct (p_nonws st); [|exact H].
  destruct (p_stack st) eqn:Hs; [exact H|]. destruct H as [H1 H2]. split; cbn [p_out p_stack p_names].
  - rewrite open_after_app, H1, Hs. reflexivity.
  - rewrite H2, Hs. reflexivity.
Qed.
Lemma pinv_start : forall st q ats b, pinv st -> pinv (start_tag st q ats b).
Proof.
  intros st q ats b H. unfold start_tag. destruct (bad_tag q ats); [exact H|].
  destruct (resolve_elem _ q); [|exact H]. destruct (resolve_attrs _ ats); [|exact H].
  destruct H as [H1 H2]. destruct b; split; cbn [p_out p_stack p_names]; try (rewrite open_after_app, H1; reflexivity).
  - exact H2.
  - cbn [List.length]. rewrite H2. reflexivity.
Qed.
Lemma pinv_end : forall st q, pinv st -> pinv (end_tag st q).
Proof.
  intros st q H. unfold end_tag. destruct (p_stack st) as [|s ss] eqn:Hs; [exact H|].
  destruct (p_names st) as [|n ns] eqn:Hn; [exact H|]. destruct (p_nss st); [exact H|].
  destruct (String.eqb s q); [|exact H]. destruct H as [H1 H2]. rewrite Hs in *. rewrite Hn in *.
  split; cbn [p_out p_stack p_names].
  - rewrite open_after_app, H1. reflexivity.
  - cbn [List.length] in H2. lia.
Qed.

Lemma pinv_same : forall st st', p_out st' = p_out st -> p_stack st' = p_stack st -> p_names st' = p_names st ->
  pinv st -> pinv st'.
Proof. intros st st' H1 H2 H3 H. unfold pinv. rewrite H1, H2, H3. exact H. Qed.

Lemma pinv_step : forall st c, pinv st -> pinv (pstep st c).
Proof.
  intros st c H. unfold pstep.
  destruct (illegal_char c); [destruct (p_mode st); auto using pinv_fail|].
  destruct (p_mode st) as [ | |acc|nm ats|nm ats acc|nm ats an|nm ats an|nm ats an q acc|nm ats|nm ats|acc|acc|acc|tl|acc|acc| |msg];
    repeat match goal with
    | |- pinv (if ?b then _ else _) => destruct b
    | |- pinv (match ?b with Some _ => _ | None => _ end) => destruct b
    end;
    auto using pinv_mode, pinv_fail, pinv_end_raw, pinv_flush, pinv_start, pinv_end.
  all: try (destruct (p_stack st); exact H).
  all: try exact H.
  destruct H as [H1 H2]. split; cbn [p_out p_stack p_names]; [|exact H2].
  rewrite open_after_app, H1. reflexivity.
Qed.

Theorem parse_nested : forall s, nested_source (parse_text s).
Proof.
  intros s. unfold parse_text.
  assert (H : pinv (prun p0 s)).
  { assert (H0 : pinv p0) by (split; reflexivity). revert H0. generalize p0 as st.
    induction s as [|c s IH]; intros st H; [exact H|]. cbn [prun]. apply IH. apply pinv_step. exact H. }
  revert H. generalize (prun p0 s) as st. intros st H. unfold pfinish.
  assert (Herr : forall l, open_after 0 (p_out st) = Some l -> forall m, nested_source (Stream (p_out st) (FErr m))).
  { intros l Hl m. exists l. split; [exact Hl|discriminate]. }
  destruct H as [H1 H2]. specialize (Herr _ H1).
  destruct (p_mode st); try apply Herr.
  unfold end_raw. destruct (unesc (p_raw st)) as [t|]; [|apply Herr].
  destruct (p_stack st) eqn:Hs; [|apply Herr].
  destruct (_ || _)%bool; [apply Herr|]. destruct (p_seen st); [|apply Herr].
  exists 0. split; [exact H1|reflexivity].
Qed.

(** ** Safe programs *)
Definition good (v : vstate) : Prop :=
  (exists d, open_after (v_depth v) (v_rest v) = Some d /\ (v_fin v = FEnd -> d = 0)) /\
  forall e, In e (v_rest v) -> visible e = true.

Lemma good_init : forall s, nested_source s -> good (view (d_init s)).
Proof.
  intros [evs f] (d & H & Hf). unfold view, d_init. cbn [d_depth d_peeked d_src s_evs s_fin app] in *. split.
  - exists d. split; [|exact Hf]. cbn [v_depth v_rest]. rewrite <- H. clear. generalize 0 as k.
    induction evs as [|e evs IH]; intros k; [reflexivity|]. unfold vis. cbn [filter].
    destruct e; cbn [visible invisible negb open_after]; try reflexivity; try apply IH. destruct k; [reflexivity|apply IH].
  - intros e He. cbn [v_rest] in He. apply filter_In in He. apply He.
Qed.

(** [W]: the panics that may happen. *)
Section Allowed.
Variable W : string -> Prop.

Definition fine {A} (p : prog A) (v : vstate) : Prop :=
  (forall m, fst (vrun p v) = OPanic m -> W m) /\ good (snd (vrun p v)).
Definition safe {A} (p : prog A) : Prop := forall v, good v -> fine p v.

Lemma fine_bind : forall A B (p : prog A) (f : A -> prog B) v, fine p v ->
  (forall a v', vrun p v = (OOk a, v') -> good v' -> fine (f a) v') -> fine (bind p f) v.
Proof.
  intros A B p f v [H1 H2] Hf. unfold fine in *. rewrite vrun_bind.
  destruct (vrun p v) as [[a|m|m|] v'] eqn:Hr; cbn [fst snd] in *.
  - apply Hf; auto.
  - split; [discriminate|exact H2].
  - split; [|exact H2]. intros m' Hm'. injection Hm' as <-. apply H1; reflexivity.
  - split; [discriminate|exact H2].
Qed.
Lemma safe_bind : forall A B (p : prog A) (f : A -> prog B), safe p -> (forall a, safe (f a)) -> safe (bind p f).
Proof. intros A B p f Hp Hf v Hv. apply fine_bind; auto. intros a v' _ Hg. apply Hf; exact Hg. Qed.
Lemma safe_attempt : forall A (p : prog A), safe p -> safe (attempt p).
Proof.
  intros A p H v Hv. destruct (H v Hv) as [H1 H2]. unfold fine in *. rewrite vrun_attempt.
  destruct (vrun p v) as [[a|m|m|] v']; cbn [fst snd] in *; (split; [|exact H2]); try discriminate.
  intros m0 Hm; injection Hm as <-; apply (H1 m); reflexivity.
Qed.
Lemma safe_ret : forall A (a : A), safe (Ret a).
Proof. intros A a v Hv; split; [discriminate|exact Hv]. Qed.
Lemma safe_crash : forall A m, W m -> @safe A (Crash m).
Proof. intros A m Hm v Hv; split; [intros m' H; injection H as <-; exact Hm|exact Hv]. Qed.
Lemma safe_throw : forall A m, @safe A (Throw m).
Proof. intros A m v Hv; split; [discriminate|exact Hv]. Qed.
Lemma safe_stuck : forall A, @safe A Stuck.
Proof. intros A v Hv; split; [discriminate|exact Hv]. Qed.
Lemma safe_peek : forall A (k : res event -> prog A), (forall r, safe (k r)) -> safe (Peek k).
Proof. intros A k H v Hv. unfold fine. cbn [vrun]. apply H; exact Hv. Qed.
Lemma safe_depth : forall A (k : nat -> prog A), (forall r, safe (k r)) -> safe (Depth k).
Proof. intros A k H v Hv. unfold fine. cbn [vrun]. apply H; exact Hv. Qed.

Lemma good_next : forall v, good v -> exists r v', vnext v = (Some r, v') /\ good v'.
Proof.
  intros [d l f] [[d' [H Hf]] Hvis]. unfold vnext. cbn [v_rest v_depth v_fin] in *.
  destruct l as [|e l].
  - do 2 eexists. split; [reflexivity|]. split; [exists d'; auto|exact Hvis].
  - assert (Hv' : forall e', In e' l -> visible e' = true) by (intros; apply Hvis; right; assumption).
    destruct e; cbn [open_after bump] in *; try discriminate;
      try (do 2 eexists; split; [reflexivity|]; split; [exists d'; auto|exact Hv']).
    destruct d; [discriminate|]. do 2 eexists; split; [reflexivity|]; split; [exists d'; auto|exact Hv'].
Qed.

Lemma safe_next : forall A (k : res event -> prog A), (forall r, safe (k r)) -> safe (Next k).
Proof.
  intros A k H v Hv. destruct (good_next v Hv) as (r & v' & Hn & Hg). unfold fine. cbn [vrun]. rewrite Hn.
  apply H; exact Hg.
Qed.
Lemma safe_of_res : forall A (r : res A), safe (of_res r).
Proof. intros A [a|m]; [apply safe_ret|apply safe_throw]. Qed.
Lemma safe_peek_ : safe peek_.
Proof. apply safe_peek. intros; apply safe_of_res. Qed.
Lemma safe_next_ : safe next_.
Proof. apply safe_next. intros; apply safe_of_res. Qed.
Lemma safe_expect_end : forall n, safe (expect_end_element n).
Proof.
  intros n. apply safe_bind; [apply safe_next_|]. intros []; try apply safe_throw.
  destruct (name_eqb _ _); [apply safe_ret|apply safe_throw].
Qed.
Lemma safe_inner : forall A (p : prog A), safe p -> safe (read_inner_value p).
Proof.
  intros A p H. apply safe_next. intros [[]|]; try apply safe_throw.
  apply safe_bind; [exact H|]. intros a. apply safe_bind; [apply safe_expect_end|]. intros; apply safe_ret.
Qed.

Lemma fine_pop : forall A (K : event -> prog A) v e, good v -> vpeek v = Ok e -> e <> EEndDoc ->
  as_writer_event e <> None ->
  (forall v', good v' -> (is_start e = true -> 1 <= v_depth v') -> fine (K e) v') -> fine (bind next_ K) v.
Proof.
  intros A K [d l f] e Hv Hp He _ HK. destruct (good_next _ Hv) as (r & v' & Hn & Hg).
  unfold fine. unfold next_. cbn [bind vrun]. rewrite Hn. unfold vpeek, vnext in *. cbn [v_rest v_fin v_depth] in *.
  destruct l as [|e' l]; [destruct f; cbn in Hp; congruence|]. inversion Hp; subst e'.
  destruct (bump d e) as [d'|] eqn:Hb; [|discriminate]. inversion Hn; subst r v'. cbn [of_res bind].
  apply HK; [exact Hg|]. intros Hs. destruct e; try discriminate Hs. cbn in Hb. inversion Hb. cbn [v_depth]. lia.
Qed.

Lemma safe_write : forall u e, as_writer_event e <> None -> safe (write_unused u e).
Proof.
  intros u e He. unfold write_unused. destruct u; try apply safe_ret.
  destruct (as_writer_event e) as [w|]; [|congruence]. destruct (emit_check stack w). apply safe_ret.
Qed.

Lemma safe_skip : forall fuel D u, 1 <= D -> safe (skip_loop fuel D write_unused u).
Proof.
  induction fuel as [|fuel IH]; intros D u HD; cbn [skip_loop]; [apply safe_stuck|].
  intros v Hv. unfold fine. cbn [vrun]. destruct (Nat.leb D (v_depth v)) eqn:Hle; [|apply safe_ret; exact Hv].
  apply Nat.leb_le in Hle.
  destruct (good_next v Hv) as (r & v' & Hn & Hg). unfold next_. cbn [bind vrun]. rewrite Hn.
  destruct r as [e|m]; [|split; [discriminate|exact Hg]]. cbn [of_res bind].
  apply (safe_bind _ _ (write_unused u e)); [|auto|exact Hg].
  apply safe_write. destruct v as [d l f]. destruct Hv as [[d' [H Hf]] Hvis]. unfold vnext in Hn.
  cbn [v_rest v_depth v_fin] in *. destruct l as [|e' l].
  - destruct f; [|discriminate]. cbn [open_after] in H. inversion H; subst. specialize (Hf eq_refl). lia.
  - assert (He' : visible e' = true) by (apply Hvis; left; reflexivity).
    assert (Hee : e = e') by (destruct (bump d e'); [inversion Hn; reflexivity|discriminate]). subst e'.
    destruct e; cbn [as_writer_event open_after] in *; try discriminate.
Qed.

Section De.
  Variable x : ext.
  Variable E : env.
  (** A payload of simple type may panic with the messages in [W]. *)
  Definition payload_ok (b : base) : Prop :=
    match b with
    | BSimple sm => forall t e, parse_simple x sm t = Er e -> W ("called `Result::unwrap()` on an `Err` value: " +++ e)
    | BUser id => nth_error E id <> None
    end.
  Variable rec : nat -> prog value.
  Hypothesis Hrec : forall id, nth_error E id <> None -> safe (rec id).
  Variable fuel : nat.

  Lemma safe_from_str : forall id s, nth_error E id <> None -> safe (from_str_in rec id s).
  Proof.
    intros id s Hid. unfold from_str_in. rewrite (proj1 (run_view _ _ _)).
    destruct (Hrec id Hid _ (good_init _ (parse_nested s))) as [H _].
    destruct (fst _); [apply safe_ret|apply safe_throw|apply safe_crash; apply H; reflexivity|apply safe_stuck].
  Qed.

  Lemma safe_visit_attr : forall b t, known E b -> safe (visit_attr x E rec b t).
  Proof.
    intros [s|id] t Hk; unfold visit_attr; [apply safe_of_res|]. cbn [known] in Hk.
    destruct (nth_error E id) eqn:Hid; [|congruence]. apply safe_from_str. congruence.
  Qed.

  Lemma fbase_base : forall t, fbase t = base_of t.
  Proof. intros []; reflexivity. Qed.

  Lemma safe_attr_items : forall b i items ss, known E b -> safe (visit_attr_items x E rec b i items ss).
  Proof.
    intros b i items; induction items as [|t items IH]; intros ss Hk; cbn [visit_attr_items]; [apply safe_ret|].
    apply safe_bind; [apply safe_visit_attr; exact Hk|]. intros; apply IH; exact Hk.
  Qed.

  Lemma safe_load_attr : forall f i attrs ss, known E (base_of (f_ty f)) -> safe (load_attr x E rec f i attrs ss).
  Proof.
    intros f i attrs; induction attrs as [|a attrs IH]; intros ss Hk; cbn [load_attr]; [apply safe_ret|].
    apply safe_bind; [|intros; apply IH; exact Hk]. destruct (String.eqb _ _); [|apply safe_ret].
    assert (Hgen : safe (bind (visit_attr x E rec (base_of (f_ty f)) (at_value a)) (fun v => Ret (upd i (put_slot v) ss)))).
    { apply safe_bind; [apply safe_visit_attr; exact Hk|]. intros; apply safe_ret. }
    destruct (f_ty f) as [b|b|b|b]; cbn [base_of] in *; try exact Hgen.
    - destruct b as [[]|]; exact Hgen.
    - apply safe_attr_items; exact Hk.
  Qed.

  Lemma safe_load_attrs : forall fs i attrs ss, (forall f, In f fs -> known E (base_of (f_ty f))) ->
    safe (load_attrs x E rec fs i attrs ss).
  Proof.
    intros fs; induction fs as [|f fs IH]; intros i attrs ss Hk; cbn [load_attrs]; [apply safe_ret|].
    apply safe_bind; [|intros; apply IH; intros; apply Hk; right; assumption].
    destruct (ya_attribute (f_attrs f)); [apply safe_load_attr; apply Hk; left; reflexivity|apply safe_ret].
  Qed.

  Lemma find_field_in : forall ra fs i ns l j f, find_field ra fs i ns l = Some (j, f) -> In f fs.
  Proof.
    intros ra fs; induction fs as [|g fs IH]; intros i ns l j f H; cbn [find_field] in H; [discriminate|].
    destruct (_ && _)%bool; [inversion H; left; reflexivity|right; eapply IH; eauto].
  Qed.

  Section Struct.
    Variable fs : list field.
    Hypothesis Hfs : forall f, In f fs -> known E (base_of (f_ty f)) /\
      (flat_field f = true -> exists i, f_ty f = TBase (BUser i) \/ f_ty f = TOpt (BUser i)).

    Lemma safe_arm_struct : forall i id dp ss, nth_error E id <> None -> safe (arm_struct rec i id dp ss).
    Proof.
      intros i id dp ss Hid. unfold arm_struct.
      assert (H : safe (Peek (fun r => match r with
        | Ok (EStart _ _ _) => bind (rec id) (fun v => bind next_ (fun _ => Ret (upd i (put_slot v) ss)))
        | _ => Ret ss end))).
      { apply safe_peek. intros [[]|]; try apply safe_ret. apply safe_bind; [apply Hrec; exact Hid|]. intros v.
        apply safe_bind; [apply safe_next_|]. intros; apply safe_ret. }
      destruct (Z.eqb dp 0); [apply safe_next; intros _|]; exact H.
    Qed.

    Lemma safe_arm_simple : forall ra i f s n ss, safe (arm_simple x ra i f s n ss).
    Proof.
      intros ra i f s n ss. unfold arm_simple. destruct (namespace_check _ _ _ _); [apply safe_throw|].
      apply safe_bind.
      - apply safe_attempt. apply safe_inner. apply safe_peek. intros [[]|]; try apply safe_throw.
        apply safe_bind; [apply safe_next_|]. intros; apply safe_of_res.
      - intros []; apply safe_ret.
    Qed.

    Lemma safe_loop : forall fl td ln sd st, safe (struct_loop x E rec fuel fl td fs ln sd st).
    Proof.
      induction fl as [|fl IH]; intros td ln sd st; cbn [struct_loop]; [apply safe_stuck|].
      intros v Hv. unfold fine. rewrite vrun_peek_.
      destruct (vpeek v) as [e|m] eqn:Hp; [|split; [discriminate|exact Hv]].
      destruct e as [ | |pi|n attrs m|n|t|t|t|t]; try (apply safe_throw; exact Hv).
      - destruct (ya_flatten (t_attrs td)); [apply safe_ret|apply IH]; exact Hv.
      - apply fine_bind.
        + destruct (_ && _)%bool.
          * eapply fine_pop; [exact Hv|exact Hp|discriminate|discriminate|]. intros v' Hg _.
            apply safe_bind; [apply safe_write; discriminate|intros; apply safe_ret|exact Hg].
          * destruct (find_field _ _ _ _ _) as [[i f]|] eqn:Hf.
            -- assert (Hk : known E (base_of (f_ty f))) by (eapply Hfs, find_field_in; eauto).
               apply safe_bind; [|intros; apply safe_ret|exact Hv]. rewrite fbase_base.
               destruct (base_of (f_ty f)); [apply safe_arm_simple|apply safe_arm_struct; exact Hk].
            -- eapply fine_pop; [exact Hv|exact Hp|discriminate|discriminate|]. intros v' Hg Hd.
               specialize (Hd eq_refl).
               apply fine_bind; [apply safe_write; [discriminate|exact Hg]|]. intros u v'' Hw Hg'.
               assert (Hsame : v'' = v').
               { unfold write_unused in Hw. destruct (l_unused st) as [| |s es]; cbn [as_writer_event] in Hw;
                   inversion Hw; reflexivity. }

               subst v''. apply fine_bind; [|intros; apply safe_ret; assumption].
               destruct (Z.ltb 0 (l_depth st)); [|apply safe_ret; exact Hg].
               unfold skip_element, fine. cbn [vrun]. apply safe_skip; assumption.
        + intros st1 v' _ Hg. apply safe_bind; [|intros; apply IH|exact Hg].
          destruct (Z.eqb _ 0); [|apply safe_ret]. apply safe_load_attrs. intros; apply Hfs; assumption.
      - unfold fine. cbn [vrun]. destruct (_ && _)%bool.
        + apply safe_bind; [apply safe_write; discriminate|intros; apply safe_ret|exact Hv].
        + eapply fine_pop; [exact Hv|exact Hp|discriminate|discriminate|]. intros v' Hg _.
          apply safe_bind; [apply safe_write; discriminate|intros; apply IH|exact Hg].
      - eapply fine_pop; [exact Hv|exact Hp|discriminate|discriminate|]. intros v' Hg _.
        apply safe_bind; [apply safe_write; discriminate|intros; apply IH|exact Hg].
    Qed.

    Lemma safe_flatten : forall fs' i text ss, incl fs' fs -> safe (visit_flatten rec fs' i text ss).
    Proof.
      induction fs' as [|f fs' IH]; intros i text ss Hin; cbn [visit_flatten]; [apply safe_ret|].
      apply safe_bind; [|intros; apply IH; intros g Hg; apply Hin; right; exact Hg].
      destruct (_ && _)%bool eqn:Hfl; [|apply safe_ret].
      destruct (Hfs f (Hin f (or_introl eq_refl))) as [Hk Hf].
      destruct (Hf Hfl) as [id [H|H]]; rewrite H in *; cbn [base_of known] in Hk.
      - apply safe_bind; [apply safe_from_str; exact Hk|intros; apply safe_ret].
      - apply safe_bind; [apply safe_attempt, safe_from_str; exact Hk|intros; apply safe_ret].
    Qed.

    Lemma safe_de_struct : forall td, safe (de_struct x E rec fuel td fs).
    Proof.
      intros td. unfold de_struct. apply safe_bind; [apply safe_peek_|]. intros e.
      assert (H : forall ln sns, safe (Depth (fun sd : nat =>
        match (if Nat.eqb sd 0 then namespace_check (ya_namespaces (t_attrs td)) (ya_prefix (t_attrs td)) sns ln else None) with
        | Some msg => Throw msg
        | None => bind (struct_loop x E rec fuel fuel td fs ln sd (LState (map (fun f => init_slot (f_ty f)) fs) (init_unused fs) 0))
            (fun st => bind (visit_unused rec fs (l_unused st) (l_slots st))
              (fun ss => bind (of_res (build x (t_name td) fs ss)) (fun vs => Ret (VRec vs)))) end))).
      { intros ln sns. apply safe_depth. intros sd. destruct (if Nat.eqb sd 0 then _ else _); [apply safe_throw|].
        apply safe_bind; [apply safe_loop|]. intros st. apply safe_bind.
        - unfold visit_unused. destruct (l_unused st); try apply safe_ret. apply safe_flatten. apply incl_refl.
        - intros ss. apply safe_bind; [apply safe_of_res|]. intros; apply safe_ret. }
      destruct e; apply H.
    Qed.
  End Struct.

  Section Enum.
    Variable vs : list variant.
    Hypothesis Hvs : forall l a fl t, In (Variant l a (VbNew fl t)) vs -> payload_ok (base_of t).

    Lemma find_variant_in : forall vs' i nm j b, find_variant vs' i nm = Some (j, b) ->
      exists l a, In (Variant l a b) vs'.
    Proof.
      induction vs' as [|[l a b0] vs' IH]; intros i nm j b H; cbn [find_variant v_body] in H; [discriminate|].
      assert (Hr : forall i, find_variant vs' i nm = Some (j, b) -> exists l' a', In (Variant l' a' b) (Variant l a b0 :: vs')).
      { intros i' Hi. destruct (IH _ _ _ _ Hi) as (l' & a' & Hin). exists l', a'. right; exact Hin. }
      destruct b0; try (destruct (String.eqb _ _); [inversion H; subst; do 2 eexists; left; reflexivity|]); eauto.
    Qed.

    Lemma safe_unwrap : forall sm t, payload_ok (BSimple sm) -> safe (visit_unwrap x sm t).
    Proof. intros sm t Hp. unfold visit_unwrap. destruct (parse_simple x sm t) eqn:Ht; [apply safe_ret|apply safe_crash; eapply Hp; eauto]. Qed.

    Lemma safe_payload : forall sm, payload_ok (BSimple sm) -> safe (read_payload x sm).
    Proof.
      intros sm Hp.
      apply safe_attempt, safe_inner, safe_bind; [apply safe_peek_|]. intros e.
      assert (H : safe (Next (fun r => match r with Ok (EChars t) => visit_unwrap x sm t
        | _ => Throw "unable to parse content for field_0" end))).
      { apply safe_next. intros [[]|]; try apply safe_throw. apply safe_unwrap; exact Hp. }
      destruct e; try exact H. apply safe_unwrap; exact Hp.
    Qed.

    Lemma safe_set : forall t i v cur, safe (set_payload t i v cur).
    Proof.
      intros t i v cur. unfold set_payload. destruct t; try apply safe_ret.
      destruct cur as [w|]; [|apply safe_ret].
      destruct w as [ | | | | | | | |j l]; try apply safe_throw.
      destruct l as [|w [|]]; try apply safe_throw; try (destruct w; apply safe_throw).
      destruct w; try apply safe_throw. destruct (Nat.eqb i j); [apply safe_ret|apply safe_throw].
    Qed.

    Lemma safe_enum_arm : forall i b cur, (exists l a, In (Variant l a b) vs) -> safe (enum_arm x rec i b cur).
    Proof.
      intros i b cur (l & a & Hin). destruct b as [|fl t|]; try apply safe_ret.
      unfold enum_arm. rewrite fbase_base. assert (Hp := Hvs _ _ _ _ Hin). destruct (base_of t) as [s|id]; cbn [payload_ok] in Hp.
      - apply safe_bind; [apply safe_payload; exact Hp|]. intros []; [|apply safe_ret].
        apply safe_bind; [apply safe_set|intros; apply safe_ret].
      - apply safe_bind; [apply Hrec; exact Hp|]. intros v. apply safe_bind; [apply safe_set|].
        intros c. apply safe_next. intros; apply safe_ret.
    Qed.

    Lemma safe_found : forall nm cur (d : prog (option value * bool)), safe d -> 
      safe (match find_variant vs 0 nm with Some (i, b) => enum_arm x rec i b cur | None => d end).
    Proof.
      intros nm cur d Hd. destruct (find_variant vs 0 nm) as [[i b]|] eqn:Hf; [|exact Hd].
      apply safe_enum_arm. eapply find_variant_in; eauto.
    Qed.

    Lemma safe_enum_loop : forall fl td ln sd cur, safe (enum_loop x rec fl td vs ln sd cur).
    Proof.
      induction fl as [|fl IH]; intros td ln sd cur; cbn [enum_loop]; [apply safe_stuck|].
      apply safe_bind; [apply safe_peek_|]. intros e.
      destruct e; try apply safe_throw.
      - destruct (ya_flatten _); [apply safe_ret|apply safe_throw].
      - apply safe_bind; [apply safe_of_res|]. intros nm. apply safe_bind.
        + apply safe_found. apply safe_next; intros; apply safe_ret.
        + intros [cur1 brk]. destruct brk; [apply safe_ret|]. apply safe_bind; [apply safe_peek_|].
          intros e2. destruct e2; try apply IH. apply safe_bind.
          * apply safe_found. apply safe_ret.
          * intros [cur2 []]; [apply safe_ret|apply IH].
      - apply safe_depth. intros d. destruct (_ && _)%bool; [apply safe_ret|]. apply safe_next; intros; apply IH.
      - apply safe_next; intros; apply IH.
    Qed.

    Lemma safe_de_enum : forall td dflt, safe (de_enum x rec fuel td vs dflt).
    Proof.
      intros td dflt. unfold de_enum. apply safe_bind; [apply safe_peek_|]. intros e.
      assert (H : forall ln ens, safe (Depth (fun sd : nat =>
        match namespace_check (ya_namespaces (t_attrs td)) (ya_prefix (t_attrs td)) ens ln with
        | Some msg => Throw msg
        | None => bind (enum_loop x rec fuel td vs ln sd None) (fun o => Ret (match o with Some v => v | None => dflt end))
        end))).
      { intros ln ens. apply safe_depth. intros sd. destruct (namespace_check _ _ _ _); [apply safe_throw|].
        apply safe_bind; [apply safe_enum_loop|intros; apply safe_ret]. }
      destruct e; apply H.
    Qed.
  End Enum.
End De.

(** All types exist and [flatten] is used on user types. *)
Theorem de_safe : forall x E, defined E ->
  (forall id td vs d l a fl t, nth_error E id = Some td -> t_body td = DEnum vs d -> In (Variant l a (VbNew fl t)) vs ->
     payload_ok x E (base_of t)) ->
  forall fuel id, nth_error E id <> None -> safe (de x E fuel id).
Proof.
  intros x E HE HW fuel. induction fuel as [|fuel IH]; intros id Hid; cbn [de]; [apply safe_stuck|].
  unfold de_body. destruct (nth_error E id) as [td|] eqn:Htd; [|congruence].
  assert (H := HE id td Htd). destruct (t_body td) as [fs|vs d|k] eqn:Hb.
  - apply safe_de_struct; assumption.
  - apply (safe_de_enum x E); [assumption|]. intros l a fl t Hin. eapply HW; eauto.
  - unfold de_prim. apply safe_peek. intros [[]|]; try apply safe_throw.
    apply safe_bind; [apply safe_next_|]. intros _. apply safe_peek. intros; apply safe_of_res.
Qed.

Theorem events_safe : forall x E, defined E ->
  (forall id td vs d l a fl t, nth_error E id = Some td -> t_body td = DEnum vs d -> In (Variant l a (VbNew fl t)) vs ->
     payload_ok x E (base_of t)) ->
  forall id, nth_error E id <> None ->
  forall fuel src m, nested_source src -> from_events x E fuel id src = OPanic m -> W m.
Proof.
  intros x E HE HW id Hid fuel src m Hs. unfold from_events. rewrite (proj1 (run_view _ _ _)).
  apply (de_safe x E HE HW fuel id Hid). apply good_init. exact Hs.
Qed.
End Allowed.

Lemma panic_free_defined : forall E, panic_free E -> defined E.
Proof.
  intros E H id td Htd. specialize (H id td Htd). destruct (t_body td); auto. intros l a fl t Hin. specialize (H l a fl t Hin).
  destruct (base_of t); [exact I|exact H].
Qed.

Theorem C18_events_lemma : forall x E, panic_free E -> forall id, nth_error E id <> None ->
  forall fuel src m, nested_source src -> from_events x E fuel id src <> OPanic m.
Proof.
  intros x E HE id Hid fuel src m Hs H.
  apply (events_safe (fun _ => False) x E (panic_free_defined E HE)) with (id := id) (fuel := fuel) (src := src) (m := m); auto.
  intros i td vs d l a fl t Htd Hb Hin. specialize (HE i td Htd). rewrite Hb in HE. specialize (HE l a fl t Hin).
  destruct (base_of t); [|exact HE]. cbn [payload_total] in HE. subst s. intros t0 e He. discriminate.
Qed.

Theorem C18_lemma : forall x E, panic_free E -> forall id, nth_error E id <> None ->
  forall fuel s m, from_str x E fuel id s <> OPanic m.
Proof. intros. apply C18_events_lemma; auto. apply parse_nested. Qed.
