(** * Proofs for C64: the same declarations elsewhere *)
From Verif Require Import Str Num Xml XmlText Reader Schema De Ser SpecDeclared NamesProofs.
Open Scope list_scope.

(** ** Programs that do the same *)
Inductive peq {A} : prog A -> prog A -> Prop :=
| pe_ret : forall a, peq (Ret a) (Ret a)
| pe_throw : forall m, peq (Throw m) (Throw m)
| pe_crash : forall m, peq (Crash m) (Crash m)
| pe_stuck : peq Stuck Stuck
| pe_peek : forall k l, (forall r, peq (k r) (l r)) -> peq (Peek k) (Peek l)
| pe_next : forall k l, (forall r, peq (k r) (l r)) -> peq (Next k) (Next l)
| pe_depth : forall k l, (forall d, peq (k d) (l d)) -> peq (Depth k) (Depth l).

Lemma peq_refl : forall A (p : prog A), peq p p.
Proof. intros A p. induction p; constructor; auto. Qed.
Lemma peq_bind : forall A B (p q : prog A) (f g : A -> prog B),
  peq p q -> (forall a, peq (f a) (g a)) -> peq (bind p f) (bind q g).
Proof. intros A B p q f g H Hf. induction H; simpl; try (constructor; auto); auto. Qed.
Lemma peq_same : forall A B (p : prog A) (f g : A -> prog B),
  (forall a, peq (f a) (g a)) -> peq (bind p f) (bind p g).
Proof. intros A B p f g Hf. apply peq_bind; [apply peq_refl|assumption]. Qed.
Lemma peq_attempt : forall A (p q : prog A), peq p q -> peq (attempt p) (attempt q).
Proof. intros A p q H. induction H; simpl; constructor; auto. Qed.
Lemma peq_run : forall A (p q : prog A), peq p q -> forall st, run p st = run q st.
Proof.
  intros A p q H. induction H; intros st; simpl; auto.
  - destruct (peek st) as [r st']. apply H0.
  - destruct (next_event st) as [[r|] st']; [apply H0|reflexivity].
Qed.

Section Reading.
  Variable x : ext.
  Variable M : nat -> nat -> Prop.
  Variables E E' : env.
  Hypothesis HE : same_text M E E'.
  Variables rec rec' : nat -> prog value.
  Hypothesis Hrec : forall i j, M i j -> peq (rec i) (rec' j).
  Variable fuel : nat.

  Lemma d_from_str_in : forall i j s, M i j -> peq (from_str_in rec i s) (from_str_in rec' j s).
  Proof. intros i j s H. unfold from_str_in. rewrite (peq_run _ _ _ (Hrec i j H)). apply peq_refl. Qed.

  Lemma d_visit_attr : forall b c t, eq_base M b c -> peq (visit_attr x E rec b t) (visit_attr x E' rec' c t).
  Proof.
    intros [s|i] [s'|j] t H; simpl in *; try contradiction.
    - subst. apply peq_refl.
    - destruct (HE i j H) as (td & td' & -> & -> & Hn & _). rewrite Hn. apply d_from_str_in. exact H.
  Qed.

  Lemma d_visit_items : forall b c i items ss, eq_base M b c ->
    peq (visit_attr_items x E rec b i items ss) (visit_attr_items x E' rec' c i items ss).
  Proof.
    intros b c i items ss H. revert ss. induction items as [|t r IH]; intros ss; simpl; [constructor|].
    apply peq_bind; [apply d_visit_attr; exact H|]. intros v. apply IH.
  Qed.

  Lemma d_load_attr : forall f g i attrs ss, eq_field M f g ->
    peq (load_attr x E rec f i attrs ss) (load_attr x E' rec' g i attrs ss).
  Proof.
    intros [l a t] [l' a' u] i attrs ss (Hl & Ha & Ht). cbn in Hl, Ha, Ht. subst l' a'. revert ss.
    induction attrs as [|at_ r IH]; intros ss; simpl; [constructor|].
    apply peq_bind; [|intros ss'; apply IH]. unfold field_local. cbn.
    destruct (String.eqb _ _); [|constructor].
    destruct t as [b|b|b|b], u as [c|c|c|c]; cbn in Ht; try contradiction; cbn.
    - destruct b as [s|k], c as [s'|k']; cbn in Ht; try contradiction; [subst s'; apply peq_refl|].
      apply peq_bind; [exact (d_visit_attr (BUser k) (BUser k') _ Ht)|intros v; constructor].
    - apply peq_bind; [apply d_visit_attr; exact Ht|intros v; constructor].
    - apply d_visit_items. exact Ht.
    - apply peq_bind; [apply d_visit_attr; exact Ht|intros v; constructor].
  Qed.

  Lemma d_load_attrs : forall fs gs i attrs ss, Forall2 (eq_field M) fs gs ->
    peq (load_attrs x E rec fs i attrs ss) (load_attrs x E' rec' gs i attrs ss).
  Proof.
    intros fs gs i attrs ss H. revert i ss. induction H as [|f g fs gs Hf _ IH]; intros i ss; simpl; [constructor|].
    apply peq_bind; [|intros ss'; apply IH]. pose proof Hf as (_ & <- & _).
    destruct (ya_attribute (f_attrs f)); [apply d_load_attr; exact Hf|constructor].
  Qed.

  Lemma d_find_field : forall ra fs gs ns local i, Forall2 (eq_field M) fs gs ->
    match find_field ra fs i ns local, find_field ra gs i ns local with
    | Some (j, f), Some (k, g) => j = k /\ eq_field M f g
    | None, None => True
    | _, _ => False
    end.
  Proof.
    intros ra fs gs ns local i H. revert i. induction H as [|f g fs gs Hf _ IH]; intros i; simpl; [exact I|].
    pose proof Hf as (Hl & Ha & _). unfold is_elem_field, field_ns, field_local. rewrite Hl, Ha.
    destruct (_ && _)%bool; [split; [reflexivity|exact Hf]|apply IH].
  Qed.

  Lemma d_fbase : forall t u, eq_fty M t u -> eq_base M (fbase t) (fbase u).
  Proof. intros [b|b|b|b] [c|c|c|c] H; simpl in *; try contradiction; exact H. Qed.

  Lemma d_arm_struct : forall i k l d ss, M k l -> peq (arm_struct rec i k d ss) (arm_struct rec' i l d ss).
  Proof.
    intros i k l d ss H. unfold arm_struct. cbv zeta.
    assert (H1 : peq
      (Peek (fun r => match r with
         | Ok (EStart _ _ _) => let* v := rec k in next_ ;; Ret (upd i (put_slot v) ss)
         | _ => Ret ss end))
      (Peek (fun r => match r with
         | Ok (EStart _ _ _) => let* v := rec' l in next_ ;; Ret (upd i (put_slot v) ss)
         | _ => Ret ss end))).
    { constructor. intros [e|m]; [|constructor]. destruct e; try constructor.
      apply peq_bind; [apply Hrec; exact H|]. intros v. apply peq_refl. }
    destruct (Z.eqb d 0); [constructor; intros _|]; exact H1.
  Qed.

  Lemma d_set_text : forall fs gs t ss, Forall2 (eq_field M) fs gs -> set_text t fs ss = set_text t gs ss.
  Proof.
    intros fs gs t ss H. revert ss. induction H as [|f g fs gs Hf _ IH]; intros [|s ss]; simpl; try reflexivity.
    rewrite IH. f_equal. destruct Hf as (_ & Ha & Ht). unfold set_text1. rewrite Ha.
    destruct (f_ty f) as [[k|k]|[k|k]|[k|k]|[k|k]], (f_ty g) as [[m|m]|[m|m]|[m|m]|[m|m]]; cbn in Ht; try contradiction;
      subst; reflexivity.
  Qed.

  Lemma d_has_flatten : forall fs gs, Forall2 (eq_field M) fs gs -> has_flatten fs = has_flatten gs.
  Proof.
    intros fs gs H. unfold has_flatten. induction H as [|f g fs gs Hf _ IH]; simpl; [reflexivity|].
    rewrite IH. destruct Hf as (_ & -> & _). reflexivity.
  Qed.

  Lemma d_init_slots : forall fs gs, Forall2 (eq_field M) fs gs ->
    map (fun f => init_slot (f_ty f)) fs = map (fun f => init_slot (f_ty f)) gs.
  Proof.
    intros fs gs H. induction H as [|f g fs gs Hf _ IH]; simpl; [reflexivity|].
    rewrite IH. f_equal. destruct Hf as (_ & _ & Ht). destruct (f_ty f), (f_ty g); cbn in Ht; try contradiction; reflexivity.
  Qed.

  Lemma d_build : forall tn fs gs ss, Forall2 (eq_field M) fs gs -> build x tn fs ss = build x tn gs ss.
  Proof.
    intros tn fs gs ss H. revert ss. induction H as [|f g fs gs Hf _ IH]; intros [|s ss]; simpl; try reflexivity.
    rewrite IH. destruct Hf as (Hl & Ha & Ht). unfold build1. rewrite Hl, Ha.
    destruct (f_ty f), (f_ty g); cbn in Ht; try contradiction; reflexivity.
  Qed.

  Lemma d_visit_flatten : forall fs gs i text ss, Forall2 (eq_field M) fs gs ->
    peq (visit_flatten rec fs i text ss) (visit_flatten rec' gs i text ss).
  Proof.
    intros fs gs i text ss H. revert i ss. induction H as [|f g fs gs Hf _ IH]; intros i ss; simpl; [constructor|].
    apply peq_bind; [|intros ss'; apply IH]. destruct Hf as (_ & <- & Ht).
    destruct (_ && _)%bool; [|constructor].
    destruct (f_ty f) as [[k|k]|[k|k]|[k|k]|[k|k]], (f_ty g) as [[m|m]|[m|m]|[m|m]|[m|m]]; cbn in Ht; try contradiction;
      try constructor.
    - apply peq_bind; [apply d_from_str_in; exact Ht|]. intros v. constructor.
    - apply peq_bind; [apply peq_attempt; apply d_from_str_in; exact Ht|]. intros v. constructor.
  Qed.

  Lemma d_struct_loop : forall fl td td' fs gs ln sd st,
    t_name td = t_name td' -> t_attrs td = t_attrs td' -> Forall2 (eq_field M) fs gs ->
    peq (struct_loop x E rec fuel fl td fs ln sd st) (struct_loop x E' rec' fuel fl td' gs ln sd st).
  Proof.
    intros fl td td' fs gs ln sd st Hn Ha Hfs. revert st.
    induction fl as [|fl IH]; intros st; [constructor|]. cbn [struct_loop]. cbv zeta.
    assert (Hr : de_root td = de_root td') by (unfold de_root; rewrite Hn, Ha; reflexivity).
    assert (Hrn : de_root_ns td = de_root_ns td') by (unfold de_root_ns; rewrite Ha; reflexivity).
    apply peq_same. intros e. destruct e as [| | |n attrs nsm|n|t| | | ]; try apply pe_throw.
    - rewrite Ha. destruct (ya_flatten (t_attrs td')); [constructor|apply IH].
    - apply peq_bind.
      + rewrite Hr, Hrn. destruct (_ && _)%bool; [apply peq_refl|]. rewrite Ha.
        pose proof (d_find_field (t_attrs td') fs gs (opt_default "" (n_ns n)) (n_local n) 0 Hfs) as Hff.
        destruct (find_field (t_attrs td') fs _ _ _) as [[i f]|], (find_field (t_attrs td') gs _ _ _) as [[j g]|]; try contradiction.
        * destruct Hff as [-> Hf]. apply peq_bind; [|intros ss; constructor].
          pose proof (d_fbase _ _ (proj2 (proj2 Hf))) as Hb.
          destruct (fbase (f_ty f)) as [s|k], (fbase (f_ty g)) as [s'|k']; cbn in Hb; try contradiction.
          -- subst s'. unfold arm_simple, field_local. destruct Hf as (-> & -> & _). apply peq_refl.
          -- apply d_arm_struct. exact Hb.
        * apply peq_refl.
      + intros st1. apply peq_bind; [|intros ss; apply IH].
        destruct (Z.eqb _ _); [|constructor]. apply d_load_attrs. exact Hfs.
    - constructor. intros d. destruct (_ && _)%bool; [apply peq_refl|].
      apply peq_same. intros ev. apply peq_same. intros u. apply IH.
    - rewrite (d_set_text fs gs _ _ Hfs). apply peq_same. intros ev. apply peq_same. intros u. apply IH.
  Qed.

  Lemma d_struct : forall td td' fs gs,
    t_name td = t_name td' -> t_attrs td = t_attrs td' -> Forall2 (eq_field M) fs gs ->
    peq (de_struct x E rec fuel td fs) (de_struct x E' rec' fuel td' gs).
  Proof.
    intros td td' fs gs Hn Ha Hfs. unfold de_struct.
    apply peq_same. intros e. replace (de_root td') with (de_root td) by (unfold de_root; rewrite Hn, Ha; reflexivity).
    destruct (match e with EStart n _ _ => _ | _ => _ end) as [ln sns].
    constructor. intros sd. rewrite <- Ha.
    destruct (if Nat.eqb sd 0 then _ else _); [constructor|].
    apply peq_bind.
    - unfold init_unused. rewrite (d_has_flatten _ _ Hfs), (d_init_slots _ _ Hfs). apply d_struct_loop; assumption.
    - intros st. apply peq_bind.
      + unfold visit_unused. destruct (l_unused st); try constructor. apply d_visit_flatten. exact Hfs.
      + intros ss. rewrite (d_build (t_name td) fs gs ss Hfs), Hn. apply peq_refl.
  Qed.

  Lemma d_find_variant : forall vs ws i nm, Forall2 (eq_variant M) vs ws ->
    match find_variant vs i nm, find_variant ws i nm with
    | Some (j, b), Some (k, c) => j = k /\ eq_vbody M b c
    | None, None => True
    | _, _ => False
    end.
  Proof.
    intros vs ws i nm H. revert i. induction H as [|v w vs ws Hv _ IH]; intros i; simpl; [exact I|].
    destruct Hv as (Hl & Ha & Hb). rewrite Hl, Ha.
    destruct (v_body v) eqn:Hvb, (v_body w) eqn:Hwb; simpl in Hb; try contradiction; try apply IH;
      (destruct (String.eqb _ _); [split; [reflexivity|exact Hb]|apply IH]).
  Qed.

  Lemma d_set_payload : forall t u i v cur, eq_fty M t u -> set_payload t i v cur = set_payload u i v cur.
  Proof. intros [b|b|b|b] [c|c|c|c] i v cur H; simpl in H; try contradiction; reflexivity. Qed.

  Lemma d_enum_arm : forall i b c cur, eq_vbody M b c -> peq (enum_arm x rec i b cur) (enum_arm x rec' i c cur).
  Proof.
    intros i b c cur H. destruct b as [|p t|fs], c as [|q u|gs]; simpl in H; try contradiction; unfold enum_arm; [constructor| |constructor].
    destruct H as [_ Ht]. pose proof (d_fbase _ _ Ht) as Hb.
    destruct (fbase t) as [s|k], (fbase u) as [s'|k']; cbn in Hb; try contradiction.
    - subst s'. apply peq_same. intros [v|m]; [|constructor]. rewrite (d_set_payload _ _ _ _ _ Ht). apply peq_refl.
    - apply peq_bind; [apply Hrec; exact Hb|]. intros v. rewrite (d_set_payload _ _ _ _ _ Ht). apply peq_refl.
  Qed.

  Lemma d_enum_loop : forall fl td td' vs ws ln sd cur, t_attrs td = t_attrs td' -> Forall2 (eq_variant M) vs ws ->
    peq (enum_loop x rec fl td vs ln sd cur) (enum_loop x rec' fl td' ws ln sd cur).
  Proof.
    intros fl td td' vs ws ln sd cur Ha Hvs. revert cur.
    induction fl as [|fl IH]; intros cur; [constructor|]. cbn [enum_loop]. cbv zeta. rewrite Ha.
    apply peq_same. intros e. destruct e as [| | |n attrs nsm|n|t| | | ]; try apply pe_throw.
    - destruct (ya_flatten (t_attrs td')); constructor.
    - apply peq_same. intros nm. apply peq_bind.
      + pose proof (d_find_variant vs ws 0 nm Hvs) as Hf.
        destruct (find_variant vs 0 nm) as [[i b]|], (find_variant ws 0 nm) as [[j c]|]; try contradiction.
        * destruct Hf as [-> Hb]. apply d_enum_arm. exact Hb.
        * apply peq_refl.
      + intros [cur1 brk]. destruct brk; [constructor|].
        apply peq_same. intros e2. destruct e2 as [| | | | |content| | | ]; try apply IH.
        apply peq_bind.
        * pose proof (d_find_variant vs ws 0 content Hvs) as Hf.
          destruct (find_variant vs 0 content) as [[i b]|], (find_variant ws 0 content) as [[j c]|]; try contradiction.
          -- destruct Hf as [-> Hb]. apply d_enum_arm. exact Hb.
          -- constructor.
        * intros [cur2 brk2]. destruct brk2; [constructor|apply IH].
    - constructor. intros d. destruct (_ && _)%bool; [constructor|]. constructor. intros r. apply IH.
    - constructor. intros r. apply IH.
  Qed.

  Lemma d_enum : forall td td' vs ws d,
    t_name td = t_name td' -> t_attrs td = t_attrs td' -> Forall2 (eq_variant M) vs ws ->
    peq (de_enum x rec fuel td vs d) (de_enum x rec' fuel td' ws d).
  Proof.
    intros td td' vs ws d Hn Ha Hvs. unfold de_enum.
    apply peq_same. intros e. replace (de_root td') with (de_root td) by (unfold de_root; rewrite Hn, Ha; reflexivity).
    destruct (match e with EStart n _ _ => _ | _ => _ end) as [ln ens].
    constructor. intros sd. rewrite <- Ha. destruct (namespace_check _ _ _ _); [constructor|].
    apply peq_bind; [apply d_enum_loop; assumption|]. intros o. constructor.
  Qed.

  Lemma d_body : forall i j, M i j -> peq (de_body x E rec fuel i) (de_body x E' rec' fuel j).
  Proof.
    intros i j H. unfold de_body. destruct (HE i j H) as (td & td' & -> & -> & Hn & Ha & Hb).
    destruct (t_body td) as [fs|vs d|k], (t_body td') as [gs|ws d'|k']; simpl in Hb; try contradiction.
    - apply d_struct; assumption.
    - destruct Hb as [Hvs <-]. apply d_enum; assumption.
    - subst k'. unfold de_prim. rewrite Hn. apply peq_refl.
  Qed.
End Reading.

Lemma d_de : forall x M E E', same_text M E E' ->
  forall fuel i j, M i j -> peq (de x E fuel i) (de x E' fuel j).
Proof.
  intros x M E E' HE fuel. induction fuel as [|fuel IH]; intros i j H; simpl; [constructor|].
  apply (d_body x M); assumption.
Qed.

(** ** Writing *)
Section Writing.
  Variable x : ext.
  Variable M : nat -> nat -> Prop.
  Variables E E' : env.
  Hypothesis HE : same_text M E E'.
  Variables rec rec' : nat -> value -> sm unit.
  Variables ra_ ra_' : nat -> value -> sres (list attr * nsmap).
  Hypothesis Hrec : forall i j v s w, M i j -> rec i v s w = rec' j v s w.
  Hypothesis Hra : forall i j v, M i j -> ra_ i v = ra_' j v.

  Lemma d_attr_text : forall b c v, eq_base M b c -> attr_text x rec b v = attr_text x rec' c v.
  Proof.
    intros [s|i] [s'|j] v H; simpl in *; try contradiction; [subst; reflexivity|].
    unfold to_string_content. rewrite (Hrec i j); [reflexivity|exact H].
  Qed.

  Lemma d_attr_of : forall ra self f g v, eq_field M f g ->
    attr_of x rec ra self f v = attr_of x rec' ra self g v.
  Proof.
    intros ra self [l a t] [l' a' u] v (Hl & Ha & Ht). cbn in Hl, Ha, Ht. subst l' a'. unfold attr_of, field_qname, field_local, fcond. cbn.
    destruct t as [b|b|b|b], u as [c|c|c|c]; cbn in Ht; try contradiction; try reflexivity.
    - rewrite (d_attr_text b c v Ht). reflexivity.
    - destruct v as [| | | | |[w|]| | | ]; try reflexivity. rewrite (d_attr_text b c w Ht). reflexivity.
  Qed.

  Lemma d_append : forall ra self fs gs vs, Forall2 (eq_field M) fs gs ->
    append_attrs x rec ra_ ra self fs vs = append_attrs x rec' ra_' ra self gs vs.
  Proof.
    intros ra self fs gs vs H. revert vs.
    induction H as [|f g fs gs Hf _ IH]; intros [|v vs]; simpl; try reflexivity.
    rewrite (d_attr_of ra self f g v Hf), IH. destruct Hf as (_ & -> & Ht).
    destruct (ya_attribute (f_attrs g)); [reflexivity|]. destruct (ya_flatten (f_attrs g)); [|reflexivity].
    destruct (f_ty f) as [[k|k]|[k|k]|[k|k]|[k|k]], (f_ty g) as [[m|m]|[m|m]|[m|m]|[m|m]]; cbn in Ht; try contradiction;
      try reflexivity. rewrite (Hra k m v Ht). reflexivity.
  Qed.

  Lemma d_item : forall b c v s w, eq_base M b c -> ser_item x rec b v s w = ser_item x rec' c v s w.
  Proof. intros [p|i] [q|j] v s w H; simpl in H; try contradiction; [subst; reflexivity|]. apply Hrec. exact H. Qed.

  Lemma d_ser_field : forall ra self f g v s w, eq_field M f g ->
    ser_field x rec ra self f v s w = ser_field x rec' ra self g v s w.
  Proof.
    intros ra self [l a t] [l' a' u] v s w (Hl & Ha & Ht). cbn in Hl, Ha, Ht. subst l' a'.
    unfold ser_field, field_qname, field_local, fcond. cbv zeta. cbn [f_label f_attrs f_ty].
    assert (Hu : forall k m (p : sm unit) u s w, M k m ->
      sbind p (fun _ => rec k u) s w = sbind p (fun _ => rec' m u) s w).
    { intros k m p v1 s1 w1 Hk. apply sbind_ext; [reflexivity|]. intros _ s2 w2. apply Hrec. exact Hk. }
    destruct (ya_attribute a); [reflexivity|].
    destruct (ya_text a).
    { destruct t as [[k|k]|[k|k]|[k|k]|[k|k]], u as [[m|m]|[m|m]|[m|m]|[m|m]]; cbn in Ht; try contradiction; subst; reflexivity. }
    destruct (negb _); [reflexivity|].
    destruct (ya_cdata a).
    { destruct t as [[k|k]|[k|k]|[k|k]|[k|k]], u as [[m|m]|[m|m]|[m|m]|[m|m]]; cbn in Ht; try contradiction; subst; reflexivity. }
    destruct t as [[k|k]|[k|k]|[k|k]|[k|k]], u as [[m|m]|[m|m]|[m|m]|[m|m]]; cbn in Ht; try contradiction; subst; try reflexivity.
    - apply Hu. exact Ht.
    - destruct v as [| | | | |[y|]| | | ]; try reflexivity. apply Hu. exact Ht.
    - destruct v as [| | | | | |y| | ]; try reflexivity. apply smap_ext. intros z s1 w1. apply Hu. exact Ht.
  Qed.

  Lemma d_ser_fields : forall ra self fs gs vs s w, Forall2 (eq_field M) fs gs ->
    ser_fields x rec ra self fs vs s w = ser_fields x rec' ra self gs vs s w.
  Proof.
    intros ra self fs gs vs s w H. revert vs s w.
    induction H as [|f g fs gs Hf _ IH]; intros [|v vs] s w; simpl; try reflexivity.
    apply sbind_ext; [intros; apply d_ser_field; assumption|]. intros _. apply IH.
  Qed.

  Lemma d_named : forall ra f g v s w, eq_field M f g ->
    ser_named_field x rec ra f v s w = ser_named_field x rec' ra g v s w.
  Proof.
    intros ra [l a t] [l' a' u] v s w (Hl & Ha & Ht). cbn in Hl, Ha, Ht. subst l' a'.
    unfold ser_named_field, field_qname, field_local. cbv zeta. cbn [f_label f_attrs f_ty].
    destruct t as [[k|k]|b|b|b], u as [[m|m]|c|c|c]; cbn in Ht; try contradiction; subst; try reflexivity.
    - apply sbind_ext; [reflexivity|]. intros _. apply sbind_ext; [reflexivity|]. intros _ s1 w1. apply Hrec. exact Ht.
    - destruct v as [| | | | | |y| | ]; try reflexivity. apply smap_ext. intros z.
      apply sbind_ext; [reflexivity|]. intros _. apply sbind_ext; [reflexivity|]. intros _ s1 w1. apply d_item. exact Ht.
  Qed.

  Lemma d_named_fields : forall ra fs gs vs s w, Forall2 (eq_field M) fs gs ->
    ser_named_fields x rec ra fs vs s w = ser_named_fields x rec' ra gs vs s w.
  Proof.
    intros ra fs gs vs s w H. revert vs s w.
    induction H as [|f g fs gs Hf _ IH]; intros [|v vs] s w; simpl; try reflexivity.
    apply sbind_ext; [intros; apply d_named; assumption|]. intros _. apply IH.
  Qed.

  Lemma d_write_item : forall q b c v s w, eq_base M b c ->
    write_item x rec q b v s w = write_item x rec' q c v s w.
  Proof.
    intros q b c v s w H. unfold write_item. apply sbind_ext; [reflexivity|]. intros _.
    apply sbind_ext; [|reflexivity].
    destruct b as [p|k], c as [p'|m]; simpl in H; try contradiction; [subst; reflexivity|].
    apply sbind_ext; [reflexivity|]. intros _. apply sbind_ext; [reflexivity|]. intros _ s1 w1. apply d_item. exact H.
  Qed.

  Lemma d_payload : forall q fl t u v s w, eq_fty M t u ->
    ser_payload x rec q fl t v s w = ser_payload x rec' q fl u v s w.
  Proof.
    intros q fl t u v s w Ht. unfold ser_payload.
    destruct t as [[k|k]|b|b|b], u as [[m|m]|c|c|c]; cbn in Ht; try contradiction; subst; try reflexivity.
    - destruct fl; [apply Hrec; exact Ht|apply d_write_item; exact Ht].
    - destruct v as [| | | | |[y|]| | | ]; try reflexivity. apply d_write_item. exact Ht.
    - destruct v as [| | | | | |y| | ]; try reflexivity. apply smap_ext. intros z s1 w1. apply d_write_item. exact Ht.
  Qed.

  Lemma d_variant : forall ra vr vr' l s w, eq_variant M vr vr' ->
    ser_variant x rec ra vr l s w = ser_variant x rec' ra vr' l s w.
  Proof.
    intros ra [lb a b] [lb' a' c] l s w (Hl & Ha & Hb). cbn in Hl, Ha, Hb. subst lb' a'.
    unfold ser_variant, variant_qname. cbv zeta. cbn [v_label v_attrs v_body].
    destruct b as [|p t|fs], c as [|q u|gs]; simpl in Hb; try contradiction; try reflexivity.
    - destruct Hb as [<- Ht]. destruct l as [|v [|]]; try reflexivity. apply d_payload. exact Ht.
    - apply d_named_fields. exact Hb.
  Qed.

  Lemma d_nth_variant : forall vs ws i, Forall2 (eq_variant M) vs ws ->
    match nth_error vs i, nth_error ws i with
    | Some v, Some v' => eq_variant M v v'
    | None, None => True
    | _, _ => False
    end.
  Proof. intros vs ws i H. revert i. induction H; intros [|i]; simpl; auto. apply IHForall2. Qed.

  Lemma d_type_attrs : forall td td' v, eq_typedef M td td' ->
    type_attrs x rec ra_ td v = type_attrs x rec' ra_' td' v.
  Proof.
    intros td td' v (Hn & Ha & Hb). unfold type_attrs. rewrite Ha.
    destruct (t_body td) as [fs|vs d|k], (t_body td') as [gs|ws d'|k']; simpl in Hb; try contradiction; try reflexivity.
    - destruct v; try reflexivity. apply d_append. exact Hb.
    - destruct v; try reflexivity. pose proof (d_nth_variant vs ws i (proj1 Hb)) as Hi.
      destruct (nth_error vs i) as [vr|], (nth_error ws i) as [vr'|]; try contradiction; try reflexivity.
      destruct Hi as (-> & -> & _). reflexivity.
  Qed.

  Lemma d_inspector : forall td td' v s w, eq_typedef M td td' ->
    inspector x rec td v s w = inspector x rec' td' v s w.
  Proof.
    intros td td' v s w (Hn & Ha & Hb). unfold inspector. rewrite Ha.
    destruct (t_body td) as [fs|vs d|k], (t_body td') as [gs|ws d'|k']; simpl in Hb; try contradiction; try reflexivity.
    - destruct v; try reflexivity. apply d_ser_fields. exact Hb.
    - destruct v; try reflexivity. pose proof (d_nth_variant vs ws i (proj1 Hb)) as Hi.
      destruct (nth_error vs i) as [vr|], (nth_error ws i) as [vr'|]; try contradiction; try reflexivity.
      apply d_variant. exact Hi.
  Qed.

  Lemma d_derived : forall td td' v s w, eq_typedef M td td' ->
    ser_derived x rec ra_ td v s w = ser_derived x rec' ra_' td' v s w.
  Proof.
    intros td td' v s w H. unfold ser_derived. cbv zeta. pose proof H as (Hn & Ha & _).
    replace (ser_root td') with (ser_root td) by (unfold ser_root; rewrite Hn, Ha; reflexivity).
    rewrite <- Ha. apply sbind_ext; [reflexivity|]. intros skip. apply sbind_ext.
    - destruct (_ && _)%bool; [|reflexivity]. apply sbind_ext; [reflexivity|]. intros o.
      rewrite (d_type_attrs td td' v H). reflexivity.
    - intros _. apply sbind_ext; [|reflexivity]. intros. apply d_inspector. exact H.
  Qed.

  Lemma d_ser_body : forall i j v s w, M i j -> ser_body x E rec ra_ i v s w = ser_body x E' rec' ra_' j v s w.
  Proof.
    intros i j v s w H. unfold ser_body. destruct (HE i j H) as (td & td' & -> & -> & Ht).
    pose proof (d_derived td td' v s w Ht) as Hd. destruct Ht as (Hn & Ha & Hb).
    destruct (t_body td) as [fs|vs d|k], (t_body td') as [gs|ws d'|k']; simpl in Hb; try contradiction; try exact Hd.
    subst k'. unfold ser_prim. rewrite Hn. reflexivity.
  Qed.

  Lemma d_attrs_body : forall i j v, M i j -> attrs_body x E rec ra_ i v = attrs_body x E' rec' ra_' j v.
  Proof.
    intros i j v H. unfold attrs_body. destruct (HE i j H) as (td & td' & -> & -> & Ht).
    rewrite (d_type_attrs td td' v Ht). destruct Ht as (Hn & <- & Hb).
    destruct (t_body td), (t_body td'); simpl in Hb; try contradiction; reflexivity.
  Qed.
End Writing.

Lemma d_all : forall x M E E', same_text M E E' -> forall fuel,
  (forall i j v s w, M i j -> fst (ser_all x E fuel) i v s w = fst (ser_all x E' fuel) j v s w) /\
  (forall i j v, M i j -> snd (ser_all x E fuel) i v = snd (ser_all x E' fuel) j v).
Proof.
  intros x M E E' HE fuel. induction fuel as [|fuel [IH1 IH2]]; simpl; [split; reflexivity|].
  split; intros.
  - apply (d_ser_body x M); assumption.
  - apply (d_attrs_body x M); assumption.
Qed.

(** ** Results *)
Lemma declared_reading : forall x M E E', same_text M E E' -> forall i j, M i j ->
  forall fuel s, from_events x E fuel i s = from_events x E' fuel j s.
Proof.
  intros x M E E' HE i j H fuel s. unfold from_events.
  rewrite (peq_run _ _ _ (d_de x M E E' HE fuel i j H)). reflexivity.
Qed.
Lemma declared_nested : forall x M E E', same_text M E E' -> forall i j, M i j ->
  forall fuel st, run (de x E fuel i) st = run (de x E' fuel j) st.
Proof. intros x M E E' HE i j H fuel st. apply peq_run. apply (d_de x M); assumption. Qed.
Lemma declared_ser : forall x M E E', same_text M E E' -> forall i j, M i j ->
  forall v sched w, ser x E i v sched w = ser x E' j v sched w.
Proof. intros x M E E' HE i j H v sched w. unfold ser. apply (d_all x M E E' HE). exact H. Qed.
Lemma declared_to_string : forall x M E E', same_text M E E' -> forall i j, M i j ->
  forall c v, to_string_with_config x E c i v = to_string_with_config x E' c j v.
Proof.
  intros x M E E' HE i j H c v. unfold to_string_with_config, ser_events.
  rewrite (declared_ser x M E E' HE i j H). reflexivity.
Qed.

(** Types that are not reached. *)
Lemma eq_fty_refl : forall (M : nat -> nat -> Prop) t, (forall i, names_type t i -> M i i) -> eq_fty M t t.
Proof. intros M [[s|i]|[s|i]|[s|i]|[s|i]] H; cbn in *; auto. Qed.
Lemma eq_fields_refl : forall (M : nat -> nat -> Prop) fs, (forall f i, In f fs -> names_type (f_ty f) i -> M i i) -> Forall2 (eq_field M) fs fs.
Proof.
  intros M fs H. induction fs as [|f fs IH]; constructor.
  - split; [reflexivity|]. split; [reflexivity|]. apply eq_fty_refl. intros i Hi. apply (H f i); [left; reflexivity|exact Hi].
  - apply IH. intros g i Hg. apply H. right. exact Hg.
Qed.
Lemma eq_typedef_refl : forall (M : nat -> nat -> Prop) td, (forall i, mentions td i -> M i i) -> eq_typedef M td td.
Proof.
  intros M td H. split; [reflexivity|]. split; [reflexivity|]. unfold mentions in H. destruct (t_body td) as [fs|vs d|k]; cbn.
  - apply eq_fields_refl. intros f i Hf Hi. apply H. eauto.
  - split; [|reflexivity]. assert (Hv : forall v, In v vs -> eq_variant M v v).
    { intros v Hv. split; [reflexivity|]. split; [reflexivity|].
      assert (H' : forall i, match v_body v with VbUnit => False | VbNew _ t => names_type t i
        | VbNamed fs => exists f, In f fs /\ names_type (f_ty f) i end -> M i i) by (intros i Hi; apply H; eauto).
      destruct (v_body v) as [|p t|fs]; cbn; [exact I|split; [reflexivity|apply eq_fty_refl; exact H']|].
      apply eq_fields_refl. intros f i Hf Hi. apply H'. eauto. }
    clear H. induction vs as [|v vs IH]; constructor; [apply Hv; left; reflexivity|].
    apply IH. intros w Hw. apply Hv. right. exact Hw.
  - reflexivity.
Qed.
Lemma agree_same_text : forall i E E', agree_from i E E' -> same_text (fun j k => j = k /\ reaches E i j) E E'.
Proof.
  intros i E E' H j k [<- Hj]. destruct (H j Hj) as (td & H1 & H2). exists td, td. split; [exact H1|]. split; [exact H2|].
  apply eq_typedef_refl. intros m Hm. split; [reflexivity|]. exact (re_there E i j m td Hj H1 Hm).
Qed.
Lemma unreached : forall x i E E', agree_from i E E' ->
  (forall fuel s, from_events x E fuel i s = from_events x E' fuel i s) /\
  (forall v sched w, ser x E i v sched w = ser x E' i v sched w).
Proof.
  intros x i E E' H. pose proof (agree_same_text i E E' H) as Ht.
  split; intros; [eapply declared_reading|eapply declared_ser]; try exact Ht; split; auto using re_here.
Qed.
