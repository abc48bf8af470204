(** * Proofs for C60: hidden identifiers and the other direction's attributes *)
From Verif Require Import Str Num Xml XmlText Reader Schema De Ser SpecNames.
From Coq Require Import Lia.
Open Scope list_scope.

(** ** Programs alike up to complaints about missing fields *)

Definition msg_alike (m m' : string) : Prop := m' = m \/ (missing m /\ missing m').

Lemma msg_refl : forall m, msg_alike m m.
Proof. intros m. left. reflexivity. Qed.

Inductive psim {A} (R : A -> A -> Prop) : prog A -> prog A -> Prop :=
| ps_ret : forall a b, R a b -> psim R (Ret a) (Ret b)
| ps_throw : forall m m', msg_alike m m' -> psim R (Throw m) (Throw m')
| ps_crash : forall m, psim R (Crash m) (Crash m)
| ps_stuck : psim R Stuck Stuck
| ps_peek : forall k l, (forall r, psim R (k r) (l r)) -> psim R (Peek k) (Peek l)
| ps_next : forall k l, (forall r, psim R (k r) (l r)) -> psim R (Next k) (Next l)
| ps_depth : forall k l, (forall d, psim R (k d) (l d)) -> psim R (Depth k) (Depth l).

Lemma psim_refl : forall A (R : A -> A -> Prop) (p : prog A),
  (forall a, R a a) -> psim R p p.
Proof.
  intros A R p H. induction p; constructor; auto using msg_refl.
Qed.

Lemma psim_bind : forall A B (R : A -> A -> Prop) (Q : B -> B -> Prop) p q f g,
  psim R p q -> (forall a b, R a b -> psim Q (f a) (g b)) ->
  psim Q (bind p f) (bind q g).
Proof.
  intros A B R Q p q f g H Hf. induction H; simpl; try (constructor; auto); auto.
Qed.

(** The usual case: the results are equal. *)
Lemma psim_let : forall A B (Q : B -> B -> Prop) (p q : prog A) f g,
  psim eq p q -> (forall a, psim Q (f a) (g a)) -> psim Q (bind p f) (bind q g).
Proof.
  intros A B Q p q f g H Hf. apply psim_bind with (R := eq); [assumption|].
  intros a b ->. apply Hf.
Qed.

Lemma psim_same : forall A B (Q : B -> B -> Prop) (p : prog A) f g,
  (forall a, psim Q (f a) (g a)) -> psim Q (bind p f) (bind p g).
Proof.
  intros A B Q p f g Hf. apply psim_let; [|assumption].
  apply psim_refl. reflexivity.
Qed.

Definition res_alike {A} (r r' : res A) : Prop :=
  match r, r' with
  | Ok a, Ok b => b = a
  | Er m, Er m' => msg_alike m m'
  | _, _ => False
  end.

Lemma psim_attempt : forall A (p q : prog A),
  psim eq p q -> psim res_alike (attempt p) (attempt q).
Proof.
  intros A p q H. induction H; simpl; constructor; auto; simpl; auto.
Qed.

Lemma psim_of_res : forall A (r r' : res A),
  res_alike r r' -> psim eq (of_res r) (of_res r').
Proof.
  intros A [a|m] [b|m'] H; simpl in *; try contradiction; constructor; auto.
Qed.

Definition out_alike {A} (o o' : outcome A) : Prop :=
  match o, o' with
  | OOk a, OOk b => b = a
  | OErr m, OErr m' => msg_alike m m'
  | OPanic m, OPanic m' => m' = m
  | OFuel, OFuel => True
  | _, _ => False
  end.

Lemma psim_run : forall A (p q : prog A), psim eq p q ->
  forall st, out_alike (fst (run p st)) (fst (run q st)).
Proof.
  intros A p q H. induction H; intros st; simpl; auto.
  - destruct (peek st) as [r st']. apply H0.
  - destruct (next_event st) as [[r|] st']; [apply H0|reflexivity].
Qed.

(** ** Declarations *)

Lemma fname_local : forall f, field_local f = fname f.
Proof. intros f. unfold field_local, fname. destruct (ya_rename (f_attrs f)); reflexivity. Qed.

Lemma tname_root : forall t, de_root t = tname t.
Proof.
  intros t. unfold de_root, xml_element_name, tname. destruct (ya_rename (t_attrs t)); reflexivity.
Qed.

Lemma vname_elem : forall v, xml_element_name (v_attrs v) (v_label v) = vname v.
Proof. intros v. unfold xml_element_name, vname. destruct (ya_rename (v_attrs v)); reflexivity. Qed.

Lemma r_local : forall f g, r_field f g -> field_local g = field_local f.
Proof. intros f g [H _]. rewrite !fname_local. exact H. Qed.

Section Reading.
  Variable x : ext.
  Variables E E' : env.
  Hypothesis HE : read_alike E E'.
  Variables rec rec' : nat -> prog value.
  Hypothesis Hrec : forall id, psim eq (rec id) (rec' id).
  Variable fuel : nat.

  Lemma n_from_str_in : forall id s,
    psim eq (from_str_in rec id s) (from_str_in rec' id s).
  Proof.
    intros id s. unfold from_str_in.
    pose proof (psim_run _ _ _ (Hrec id) (d_init (parse_text s))) as H.
    destruct (fst (run (rec id) (d_init (parse_text s))));
      destruct (fst (run (rec' id) (d_init (parse_text s))));
      simpl in H; try contradiction; subst; constructor; auto.
  Qed.

  Lemma n_types : forall id,
    match nth_error E id, nth_error E' id with
    | Some td, Some td' => r_type td td'
    | None, None => True
    | _, _ => False
    end.
  Proof.
    destruct HE as [H _]. clear HE. induction H; intros [|id]; simpl; auto. apply IHForall2.
  Qed.

  Lemma n_visit_attr : forall b t,
    (forall id, b = BUser id -> in_attribute E id) ->
    psim eq (visit_attr x E rec b t) (visit_attr x E' rec' b t).
  Proof.
    intros [s|id] t Hin; simpl.
    - apply psim_refl. reflexivity.
    - pose proof (n_types id) as Ht. destruct HE as [_ Hn].
      specialize (Hn id).
      destruct (nth_error E id) as [td|], (nth_error E' id) as [td'|]; try contradiction.
      + rewrite (Hn td td' eq_refl eq_refl (or_introl (Hin id eq_refl))). apply n_from_str_in.
      + constructor.
  Qed.

  Lemma n_visit_items : forall b i items ss,
    (forall id, b = BUser id -> in_attribute E id) ->
    psim eq (visit_attr_items x E rec b i items ss) (visit_attr_items x E' rec' b i items ss).
  Proof.
    intros b i items. induction items as [|t r IH]; intros ss Hin; simpl.
    - constructor. reflexivity.
    - apply psim_let; [apply n_visit_attr; assumption|]. intros v. apply IH. assumption.
  Qed.

  Lemma n_load_attr : forall f g i attrs ss,
    r_field f g -> (forall id, fbase (f_ty f) = BUser id -> in_attribute E id) ->
    psim eq (load_attr x E rec f i attrs ss) (load_attr x E' rec' g i attrs ss).
  Proof.
    intros f g i attrs ss Hf Hin. revert ss. induction attrs as [|a r IH]; intros ss; simpl.
    - constructor. reflexivity.
    - apply psim_let; [|intros ss'; apply IH].
      rewrite (r_local _ _ Hf). destruct Hf as (_ & -> & _).
      destruct (String.eqb _ _); [|constructor; reflexivity].
      assert (Hone : psim eq
        (bind (visit_attr x E rec (fbase (f_ty f)) (at_value a))
           (fun v => Ret (upd i (put_slot v) ss)))
        (bind (visit_attr x E' rec' (fbase (f_ty f)) (at_value a))
           (fun v => Ret (upd i (put_slot v) ss)))).
      { apply psim_let; [apply n_visit_attr; assumption|]. intros v. constructor. reflexivity. }
      destruct (f_ty f) as [b|b|b|b]; simpl in Hin, Hone; try exact Hone.
      + destruct b as [s|id]; [destruct s|]; try exact Hone.
      + apply n_visit_items. assumption.
  Qed.

  Lemma n_load_attrs : forall fs gs i attrs ss,
    Forall2 r_field fs gs ->
    (forall f id, In f fs -> ya_attribute (f_attrs f) = true ->
       fbase (f_ty f) = BUser id -> in_attribute E id) ->
    psim eq (load_attrs x E rec fs i attrs ss) (load_attrs x E' rec' gs i attrs ss).
  Proof.
    intros fs gs i attrs ss H. revert i ss.
    induction H as [|f g fs gs Hf _ IH]; intros i ss Hin; simpl.
    - constructor. reflexivity.
    - apply psim_let.
      + pose proof Hf as (_ & _ & _ & Ha & _). rewrite Ha.
        destruct (ya_attribute (f_attrs f)) eqn:Hb; [|constructor; reflexivity].
        apply n_load_attr; [assumption|]. intros id. apply Hin; [left; reflexivity|assumption].
      + intros ss'. apply IH. intros h id Hh. apply Hin. right. assumption.
  Qed.

  Lemma n_find_field : forall ra ra' fs gs ns local i,
    ya_namespaces ra' = ya_namespaces ra -> Forall2 r_field fs gs ->
    match find_field ra fs i ns local, find_field ra' gs i ns local with
    | Some (j, f), Some (k, g) => k = j /\ r_field f g
    | None, None => True
    | _, _ => False
    end.
  Proof.
    intros ra ra' fs gs ns local i Hns H. revert i.
    induction H as [|f g fs gs Hf _ IH]; intros i; simpl; [exact I|].
    assert (He : is_elem_field g = is_elem_field f).
    { destruct Hf as (_ & _ & _ & Ha & Hl & _). unfold is_elem_field. rewrite Ha, Hl. reflexivity. }
    assert (Hn : field_ns ra' g = field_ns ra f).
    { destruct Hf as (_ & _ & Hp & _). unfold field_ns. rewrite Hp, Hns. reflexivity. }
    rewrite He, Hn, (r_local _ _ Hf).
    destruct (_ && _)%bool; [split; [reflexivity|assumption]|apply IH].
  Qed.

  Lemma n_arm_struct : forall i id d ss,
    psim eq (arm_struct rec i id d ss) (arm_struct rec' i id d ss).
  Proof.
    intros i id d ss. unfold arm_struct.
    assert (H : psim eq
      (Peek (fun r => match r with
         | Ok (EStart _ _ _) => let* v := rec id in next_ ;; Ret (upd i (put_slot v) ss)
         | _ => Ret ss end))
      (Peek (fun r => match r with
         | Ok (EStart _ _ _) => let* v := rec' id in next_ ;; Ret (upd i (put_slot v) ss)
         | _ => Ret ss end))).
    { constructor. intros [e|m]; [|constructor; reflexivity].
      destruct e; try (constructor; reflexivity).
      apply psim_let; [apply Hrec|]. intros v. apply psim_refl. reflexivity. }
    destruct (Z.eqb d 0); [constructor; intros _|]; exact H.
  Qed.

  Lemma n_arm_simple : forall ra ra' i f g s n ss,
    ya_namespaces ra' = ya_namespaces ra -> r_field f g ->
    psim eq (arm_simple x ra i f s n ss) (arm_simple x ra' i g s n ss).
  Proof.
    intros ra ra' i f g s n ss Hns Hf. unfold arm_simple.
    pose proof Hf as (_ & _ & Hp & _). rewrite Hns, Hp, (r_local _ _ Hf).
    apply psim_refl. reflexivity.
  Qed.

  Lemma n_set_text : forall fs gs t ss,
    Forall2 r_field fs gs -> set_text t gs ss = set_text t fs ss.
  Proof.
    intros fs gs t ss H. revert ss.
    induction H as [|f g fs gs Hf _ IH]; intros [|s ss]; simpl; try reflexivity.
    rewrite IH. f_equal. destruct Hf as (_ & Ht & _ & _ & _ & Hx & _).
    unfold set_text1. rewrite Ht, Hx. reflexivity.
  Qed.

  Lemma n_has_flatten : forall fs gs,
    Forall2 r_field fs gs -> has_flatten gs = has_flatten fs.
  Proof.
    intros fs gs H. unfold has_flatten.
    induction H as [|f g fs gs Hf _ IH]; simpl; [reflexivity|].
    rewrite IH. destruct Hf as (_ & _ & _ & -> & -> & _). reflexivity.
  Qed.

  Lemma n_init_slots : forall fs gs,
    Forall2 r_field fs gs ->
    map (fun f => init_slot (f_ty f)) gs = map (fun f => init_slot (f_ty f)) fs.
  Proof.
    intros fs gs H. induction H as [|f g fs gs Hf _ IH]; simpl; [reflexivity|].
    rewrite IH. destruct Hf as (_ & -> & _). reflexivity.
  Qed.

  Lemma n_build : forall tn tn' fs gs ss,
    Forall2 r_field fs gs -> res_alike (build x tn fs ss) (build x tn' gs ss).
  Proof.
    intros tn tn' fs gs ss H. revert ss.
    induction H as [|f g fs gs Hf _ IH]; intros [|s ss]; simpl; try (left; reflexivity);
      try reflexivity.
    assert (H1 : res_alike (build1 x tn f s) (build1 x tn' g s)).
    { destruct Hf as (_ & Ht & _ & _ & _ & _ & Hd). unfold build1. rewrite Ht, Hd.
      destruct (f_ty f), s as [[v|]|l]; simpl; try reflexivity; try (left; reflexivity).
      destruct (ya_default (f_attrs f)); simpl; [reflexivity|].
      right. split; eexists; eexists; reflexivity. }
    destruct (build1 x tn f s) as [v|m], (build1 x tn' g s) as [v'|m']; simpl in H1;
      try contradiction; [subst v'|exact H1].
    specialize (IH ss).
    destruct (build x tn fs ss) as [l|m], (build x tn' gs ss) as [l'|m']; simpl in *;
      try contradiction; [congruence|assumption].
  Qed.

  Lemma n_visit_flatten : forall fs gs i text ss,
    Forall2 r_field fs gs ->
    psim eq (visit_flatten rec fs i text ss) (visit_flatten rec' gs i text ss).
  Proof.
    intros fs gs i text ss H. revert i ss.
    induction H as [|f g fs gs Hf _ IH]; intros i ss; simpl.
    - constructor. reflexivity.
    - apply psim_let; [|intros ss'; apply IH].
      destruct Hf as (_ & Ht & _ & Ha & Hl & _). rewrite Ha, Hl, Ht.
      destruct (_ && _)%bool; [|constructor; reflexivity].
      destruct (f_ty f) as [b|b|b|b]; try constructor; destruct b as [s|id]; try constructor.
      + apply psim_let; [apply n_from_str_in|]. intros v. constructor. reflexivity.
      + eapply psim_bind; [apply psim_attempt; apply n_from_str_in|].
        intros [a|m] [b|m'] Hr; simpl in Hr; try contradiction; [subst|]; constructor; reflexivity.
  Qed.

  Lemma n_root_ns : forall td td', r_type td td' -> de_root_ns td' = de_root_ns td.
  Proof. intros td td' (_ & Hp & Hn & _). unfold de_root_ns. rewrite Hp, Hn. reflexivity. Qed.

  Lemma n_root : forall td td', r_type td td' -> de_root td' = de_root td.
  Proof. intros td td' (H & _). rewrite !tname_root. exact H. Qed.

  Lemma n_struct_loop : forall fl td td' fs gs ln sd st,
    r_type td td' -> Forall2 r_field fs gs ->
    (forall f id, In f fs -> ya_attribute (f_attrs f) = true ->
       fbase (f_ty f) = BUser id -> in_attribute E id) ->
    psim eq (struct_loop x E rec fuel fl td fs ln sd st)
            (struct_loop x E' rec' fuel fl td' gs ln sd st).
  Proof.
    intros fl td td' fs gs ln sd st Htd Hfs Hin. revert st.
    induction fl as [|fl IH]; intros st; [constructor|]. cbn [struct_loop].
    pose proof Htd as (_ & Hpre & Hns & Hfl & _).
    apply psim_same. intros e. destruct e as [| | |n attrs nsm|n|t| | | ]; try (left; reflexivity);
      try (constructor; left; reflexivity).
    - rewrite Hfl. destruct (ya_flatten (t_attrs td)); [constructor; reflexivity|apply IH].
    - apply psim_let.
      + rewrite (n_root _ _ Htd), (n_root_ns _ _ Htd).
        destruct (_ && _)%bool; [apply psim_refl; reflexivity|].
        pose proof (n_find_field (t_attrs td) (t_attrs td') fs gs (opt_default "" (n_ns n))
                      (n_local n) 0 Hns Hfs) as Hff.
        destruct (find_field (t_attrs td) fs _ _ _) as [[i f]|],
                 (find_field (t_attrs td') gs _ _ _) as [[j g]|]; try contradiction.
        * destruct Hff as [-> Hf]. apply psim_let; [|intros ss; constructor; reflexivity].
          pose proof Hf as (_ & -> & _). destruct (fbase (f_ty f)) as [s|id].
          -- apply n_arm_simple; assumption.
          -- apply n_arm_struct.
        * apply psim_refl. reflexivity.
      + intros st1. apply psim_let; [|intros ss; apply IH].
        destruct (Z.eqb _ _); [|constructor; reflexivity]. apply n_load_attrs; assumption.
    - constructor. intros d. destruct (_ && _)%bool; [apply psim_refl; reflexivity|].
      apply psim_same. intros ev. apply psim_same. intros u. apply IH.
    - rewrite (n_set_text fs gs _ _ Hfs).
      apply psim_same. intros ev. apply psim_same. intros u. apply IH.
  Qed.

  Lemma n_struct : forall td td' fs gs,
    r_type td td' -> Forall2 r_field fs gs ->
    (forall f id, In f fs -> ya_attribute (f_attrs f) = true ->
       fbase (f_ty f) = BUser id -> in_attribute E id) ->
    psim eq (de_struct x E rec fuel td fs) (de_struct x E' rec' fuel td' gs).
  Proof.
    intros td td' fs gs Htd Hfs Hin. unfold de_struct.
    apply psim_same. intros e. rewrite (n_root _ _ Htd).
    destruct (match e with EStart n _ _ => _ | _ => _ end) as [ln sns].
    constructor. intros sd. pose proof Htd as (_ & Hpre & Hns & _). rewrite Hpre, Hns.
    destruct (if Nat.eqb sd 0 then _ else _); [constructor; left; reflexivity|].
    apply psim_let.
    - unfold init_unused. rewrite (n_has_flatten _ _ Hfs), (n_init_slots _ _ Hfs).
      apply n_struct_loop; assumption.
    - intros st. apply psim_let.
      + unfold visit_unused. destruct (l_unused st); try (constructor; reflexivity).
        apply n_visit_flatten. assumption.
      + intros ss. apply psim_let; [apply psim_of_res; apply n_build; assumption|].
        intros vs. constructor. reflexivity.
  Qed.

  Lemma n_find_variant : forall vs ws i nm,
    Forall2 r_variant vs ws ->
    match find_variant vs i nm, find_variant ws i nm with
    | Some (j, b), Some (k, c) => k = j /\ r_vbody b c
    | None, None => True
    | _, _ => False
    end.
  Proof.
    intros vs ws i nm H. revert i. induction H as [|v w vs ws Hv _ IH]; intros i; simpl; [exact I|].
    destruct Hv as [Hn Hb]. rewrite !vname_elem, Hn.
    destruct (v_body v) eqn:Hvb, (v_body w) eqn:Hwb; simpl in Hb; try contradiction; try apply IH;
      (destruct (String.eqb _ _); [split; [reflexivity|exact Hb]|apply IH]).
  Qed.

  Lemma n_enum_arm : forall i b c cur, r_vbody b c ->
    psim eq (enum_arm x rec i b cur) (enum_arm x rec' i c cur).
  Proof.
    intros i b c cur H. destruct b, c; simpl in H; try contradiction; simpl;
      try (constructor; reflexivity).
    subst. destruct (fbase t) as [s|id].
    - apply psim_refl. reflexivity.
    - apply psim_let; [apply Hrec|]. intros v. apply psim_refl. reflexivity.
  Qed.

  Lemma n_enum_loop : forall fl td td' vs ws ln sd cur,
    r_type td td' -> Forall2 r_variant vs ws ->
    psim eq (enum_loop x rec fl td vs ln sd cur) (enum_loop x rec' fl td' ws ln sd cur).
  Proof.
    intros fl td td' vs ws ln sd cur Htd Hvs. revert cur.
    induction fl as [|fl IH]; intros cur; [constructor|]. cbn [enum_loop].
    pose proof Htd as (_ & _ & _ & Hfl & Htag & _).
    apply psim_same. intros e. destruct e as [| | |n attrs nsm|n|t| | | ];
      try (constructor; left; reflexivity).
    - rewrite Hfl. destruct (ya_flatten (t_attrs td)); constructor; try reflexivity; left; reflexivity.
    - rewrite Htag. apply psim_same. intros nm. apply psim_let.
      + pose proof (n_find_variant vs ws 0 nm Hvs) as Hf.
        destruct (find_variant vs 0 nm) as [[i b]|], (find_variant ws 0 nm) as [[j c]|];
          try contradiction.
        * destruct Hf as [-> Hb]. apply n_enum_arm. assumption.
        * apply psim_refl. reflexivity.
      + intros [cur1 brk]. destruct brk; [constructor; reflexivity|].
        apply psim_same. intros e2. destruct e2 as [| | | | |content| | | ]; try apply IH.
        apply psim_let.
        * pose proof (n_find_variant vs ws 0 content Hvs) as Hf.
          destruct (find_variant vs 0 content) as [[i b]|],
                   (find_variant ws 0 content) as [[j c]|]; try contradiction.
          -- destruct Hf as [-> Hb]. apply n_enum_arm. assumption.
          -- constructor. reflexivity.
        * intros [cur2 brk2]. destruct brk2; [constructor; reflexivity|apply IH].
    - constructor. intros d. destruct (_ && _)%bool; [constructor; reflexivity|].
      constructor. intros r. apply IH.
    - constructor. intros r. apply IH.
  Qed.

  Lemma n_enum : forall td td' vs ws d,
    r_type td td' -> Forall2 r_variant vs ws ->
    psim eq (de_enum x rec fuel td vs d) (de_enum x rec' fuel td' ws d).
  Proof.
    intros td td' vs ws d Htd Hvs. unfold de_enum.
    apply psim_same. intros e. rewrite (n_root _ _ Htd).
    destruct (match e with EStart n _ _ => _ | _ => _ end) as [ln ens].
    constructor. intros sd. pose proof Htd as (_ & Hpre & Hns & _). rewrite Hpre, Hns.
    destruct (namespace_check _ _ _ _); [constructor; left; reflexivity|].
    apply psim_let; [apply n_enum_loop; assumption|]. intros o. constructor. reflexivity.
  Qed.

  Lemma n_body : forall id, psim eq (de_body x E rec fuel id) (de_body x E' rec' fuel id).
  Proof.
    intros id. unfold de_body. pose proof (n_types id) as Ht. destruct HE as [_ Hn].
    specialize (Hn id).
    destruct (nth_error E id) as [td|] eqn:Hid, (nth_error E' id) as [td'|] eqn:Hid';
      try contradiction; [|constructor].
    pose proof Ht as (_ & _ & _ & _ & _ & Hb).
    destruct (t_body td) as [fs|vs d|k] eqn:Hbody, (t_body td') as [gs|ws d'|k'];
      simpl in Hb; try contradiction.
    - apply n_struct; try assumption. intros f i Hf Ha Hi.
      exists id, td, fs, f. repeat (split; [assumption|]). exact Hi.
    - destruct Hb as [Hvs ->]. apply n_enum; assumption.
    - subst k'. unfold de_prim.
      rewrite (Hn td td' eq_refl eq_refl (or_intror (ex_intro _ k Hbody))).
      apply psim_refl. reflexivity.
  Qed.
End Reading.

Lemma n_de : forall x E E', read_alike E E' ->
  forall fuel id, psim eq (de x E fuel id) (de x E' fuel id).
Proof.
  intros x E E' HE fuel. induction fuel as [|fuel IH]; intros id; simpl; [constructor|].
  apply n_body; assumption.
Qed.

Lemma names_reading : forall x E E', read_alike E E' ->
  forall fuel id s, same_reading (from_events x E fuel id s) (from_events x E' fuel id s).
Proof.
  intros x E E' HE fuel id s. unfold from_events, same_reading.
  pose proof (psim_run _ _ _ (n_de x E E' HE fuel id) (d_init s)) as H.
  destruct (fst (run (de x E fuel id) (d_init s))) as [v|m|m|];
    destruct (fst (run (de x E' fuel id) (d_init s))) as [v'|m'|m'|];
    simpl in H; try contradiction; try (left; congruence).
  destruct H as [->|[H H']]; [left; reflexivity|].
  right. exists m, m'. repeat split; assumption.
Qed.

(** ** Writing *)

Lemma w_q : forall ra ra' f g,
  ya_default_namespace ra' = ya_default_namespace ra ->
  fname g = fname f -> ya_prefix (f_attrs g) = ya_prefix (f_attrs f) ->
  field_qname ra' g = field_qname ra f.
Proof.
  intros ra ra' f g Hd Hn Hp. unfold field_qname. rewrite !fname_local, Hd, Hn, Hp. reflexivity.
Qed.

Lemma sbind_ext : forall A B (p q : sm A) (f g : A -> sm B),
  (forall s w, p s w = q s w) -> (forall a s w, f a s w = g a s w) ->
  forall s w, sbind p f s w = sbind q g s w.
Proof.
  intros A B p q f g Hp Hf s w. unfold sbind. rewrite Hp.
  destruct (q s w) as [[a|m|] w']; auto.
Qed.

Lemma smap_ext : forall A (f g : A -> sm unit) l,
  (forall a s w, f a s w = g a s w) -> forall s w, smap f l s w = smap g l s w.
Proof.
  intros A f g l H. induction l as [|a l IH]; intros s w; simpl; [reflexivity|].
  apply sbind_ext; [apply H|]. intros _. apply IH.
Qed.

Section Writing.
  Variable x : ext.
  Variables E E' : env.
  Hypothesis HE : write_alike E E'.
  Variables rec rec' : nat -> value -> sm unit.
  Variables ra_ ra_' : nat -> value -> sres (list attr * nsmap).
  Hypothesis Hrec : forall id v s w, rec' id v s w = rec id v s w.
  Hypothesis Hra : forall id v, ra_' id v = ra_ id v.

  Lemma w_content : forall id v, to_string_content rec' id v = to_string_content rec id v.
  Proof. intros id v. unfold to_string_content. rewrite Hrec. reflexivity. Qed.

  Lemma w_attr_text : forall b v, attr_text x rec' b v = attr_text x rec b v.
  Proof. intros [s|id] v; simpl; [reflexivity|apply w_content]. Qed.

  Lemma w_fcond : forall self v f g b, w_field f g -> fcond x self v g b = fcond x self v f b.
  Proof.
    intros self v f g b (_ & _ & _ & _ & _ & _ & _ & Hs & Hi & Hd).
    unfold fcond. rewrite Hs, Hi, Hd. reflexivity.
  Qed.

  Lemma w_fq : forall ra ra' f g,
    ya_default_namespace ra' = ya_default_namespace ra -> w_field f g ->
    field_qname ra' g = field_qname ra f.
  Proof. intros ra ra' f g Hd (Hn & _ & Hp & _). apply w_q; assumption. Qed.

  Lemma w_attr_of : forall ra ra' self f g v,
    ya_default_namespace ra' = ya_default_namespace ra -> w_field f g ->
    attr_of x rec' ra' self g v = attr_of x rec ra self f v.
  Proof.
    intros ra ra' self f g v Hd Hf. unfold attr_of.
    rewrite (w_fq ra ra' f g Hd Hf), (w_fcond self v f g false Hf).
    destruct Hf as (_ & -> & _).
    destruct (f_ty f) as [b|b|b|b]; try reflexivity.
    - rewrite w_attr_text. reflexivity.
    - destruct v as [| | | | |[u|]| | | ]; try reflexivity. rewrite w_attr_text. reflexivity.
  Qed.

  Lemma w_append : forall ra ra' self fs gs vs,
    ya_default_namespace ra' = ya_default_namespace ra -> Forall2 w_field fs gs ->
    append_attrs x rec' ra_' ra' self gs vs = append_attrs x rec ra_ ra self fs vs.
  Proof.
    intros ra ra' self fs gs vs Hd H. revert vs.
    induction H as [|f g fs gs Hf _ IH]; intros [|v vs]; simpl; try reflexivity.
    rewrite (w_attr_of ra ra' self f g v Hd Hf), IH.
    destruct Hf as (_ & Ht & _ & Ha & Hl & _). rewrite Ht, Ha, Hl.
    destruct (ya_attribute (f_attrs f)); [reflexivity|].
    destruct (ya_flatten (f_attrs f)); [|reflexivity].
    destruct (f_ty f) as [[s|id]|b|b|b]; try reflexivity. rewrite Hra. reflexivity.
  Qed.

  Lemma w_item : forall b v s w, ser_item x rec' b v s w = ser_item x rec b v s w.
  Proof. intros [s|id] v s0 w; simpl; [reflexivity|apply Hrec]. Qed.

  Lemma w_ser_field : forall ra ra' self f g v s w,
    ya_default_namespace ra' = ya_default_namespace ra -> w_field f g ->
    ser_field x rec' ra' self g v s w = ser_field x rec ra self f v s w.
  Proof.
    intros ra ra' self f g v s w Hd Hf. unfold ser_field. cbv zeta.
    rewrite (w_fq ra ra' f g Hd Hf), (w_fcond self v f g true Hf).
    destruct Hf as (_ & Ht & _ & Ha & Hl & Hx & Hc & _). rewrite Ht, Ha, Hl, Hx, Hc.
    destruct (ya_attribute (f_attrs f)); [reflexivity|]. destruct (ya_text (f_attrs f)); [reflexivity|].
    destruct (negb (fcond x self v f true)); [reflexivity|]. destruct (ya_cdata (f_attrs f)); [reflexivity|].
    assert (Hu : forall id u s w,
      sbind (if ya_flatten (f_attrs f) then sbind (set_name None) (fun _ => set_skip true)
             else sbind (set_name (Some (field_qname ra f))) (fun _ => set_skip false))
            (fun _ => rec' id u) s w =
      sbind (if ya_flatten (f_attrs f) then sbind (set_name None) (fun _ => set_skip true)
             else sbind (set_name (Some (field_qname ra f))) (fun _ => set_skip false))
            (fun _ => rec id u) s w).
    { intros id u s1 w1. apply sbind_ext; [reflexivity|]. intros _ s2 w2. apply Hrec. }
    destruct (f_ty f) as [[b|id]|[b|id]|[b|id]|[b|id]]; try reflexivity.
    - apply Hu.
    - destruct v as [| | | | |[u|]| | | ]; try reflexivity. apply Hu.
    - destruct v as [| | | | | |l| | ]; try reflexivity. apply smap_ext. intros a. apply Hu.
  Qed.

  Lemma w_ser_fields : forall ra ra' self fs gs vs s w,
    ya_default_namespace ra' = ya_default_namespace ra -> Forall2 w_field fs gs ->
    ser_fields x rec' ra' self gs vs s w = ser_fields x rec ra self fs vs s w.
  Proof.
    intros ra ra' self fs gs vs s w Hd H. revert vs s w.
    induction H as [|f g fs gs Hf _ IH]; intros [|v vs] s w; simpl; try reflexivity.
    apply sbind_ext; [intros; apply w_ser_field; assumption|]. intros _. apply IH.
  Qed.

  Lemma w_named : forall ra ra' f g v s w,
    ya_default_namespace ra' = ya_default_namespace ra -> w_vfield f g ->
    ser_named_field x rec' ra' g v s w = ser_named_field x rec ra f v s w.
  Proof.
    intros ra ra' f g v s w Hd (Hn & Ht & Hp). unfold ser_named_field. cbv zeta.
    rewrite (w_q ra ra' f g Hd Hn Hp), Ht.
    destruct (f_ty f) as [[b|id]|b|b|b]; try reflexivity.
    - apply sbind_ext; [reflexivity|]. intros _. apply sbind_ext; [reflexivity|].
      intros _. apply Hrec.
    - destruct v as [| | | | | |l| | ]; try reflexivity. apply smap_ext. intros a.
      apply sbind_ext; [reflexivity|]. intros _. apply sbind_ext; [reflexivity|].
      intros _. apply w_item.
  Qed.

  Lemma w_named_fields : forall ra ra' fs gs vs s w,
    ya_default_namespace ra' = ya_default_namespace ra -> Forall2 w_vfield fs gs ->
    ser_named_fields x rec' ra' gs vs s w = ser_named_fields x rec ra fs vs s w.
  Proof.
    intros ra ra' fs gs vs s w Hd H. revert vs s w.
    induction H as [|f g fs gs Hf _ IH]; intros [|v vs] s w; simpl; try reflexivity.
    apply sbind_ext; [intros; apply w_named; assumption|]. intros _. apply IH.
  Qed.

  Lemma w_write_item : forall q b v s w,
    write_item x rec' q b v s w = write_item x rec q b v s w.
  Proof.
    intros q b v. unfold write_item. apply sbind_ext; [reflexivity|]. intros _.
    apply sbind_ext; [|reflexivity].
    destruct b as [p|id].
    - reflexivity.
    - apply sbind_ext; [reflexivity|]. intros _. apply sbind_ext; [reflexivity|].
      intros _. apply w_item.
  Qed.

  Lemma w_payload : forall q fl t v s w,
    ser_payload x rec' q fl t v s w = ser_payload x rec q fl t v s w.
  Proof.
    intros q fl t v s w. unfold ser_payload.
    destruct t as [[b|id]|b|b|b]; try reflexivity.
    - destruct fl; [apply Hrec|apply w_write_item].
    - destruct v as [| | | | |[u|]| | | ]; try reflexivity. apply w_write_item.
    - destruct v as [| | | | | |l| | ]; try reflexivity. apply smap_ext. intros a. apply w_write_item.
  Qed.

  Lemma w_ser_variant : forall ra ra' vr vr' l s w,
    ya_default_namespace ra' = ya_default_namespace ra -> ya_tag ra' = ya_tag ra ->
    w_variant vr vr' ->
    ser_variant x rec' ra' vr' l s w = ser_variant x rec ra vr l s w.
  Proof.
    intros ra ra' vr vr' l s w Hd Htag (Hn & Hp & Hfl & Hb). unfold ser_variant. cbv zeta.
    assert (Hq : variant_qname ra' vr' = variant_qname ra vr).
    { unfold variant_qname. fold (xml_element_name (v_attrs vr') (v_label vr')).
      fold (xml_element_name (v_attrs vr) (v_label vr)).
      rewrite !vname_elem, Hd, Hp, Hn. reflexivity. }
    rewrite Hq, Htag, Hfl.
    destruct (v_body vr) as [|b t|fs], (v_body vr') as [|b' t'|gs]; simpl in Hb;
      try contradiction; try reflexivity.
    - destruct Hb as [-> ->]. destruct l as [|v [|]]; try reflexivity. apply w_payload.
    - apply w_named_fields; assumption.
  Qed.

  Lemma w_nth_variant : forall vs ws i, Forall2 w_variant vs ws ->
    match nth_error vs i, nth_error ws i with
    | Some v, Some v' => w_variant v v'
    | None, None => True
    | _, _ => False
    end.
  Proof.
    intros vs ws i H. revert i. induction H; intros [|i]; simpl; auto. apply IHForall2.
  Qed.

  Lemma w_nth_type : forall id,
    match nth_error E id, nth_error E' id with
    | Some t, Some t' => w_type t t'
    | None, None => True
    | _, _ => False
    end.
  Proof.
    pose proof HE as H. clear HE. unfold write_alike in H.
    induction H; intros [|id]; simpl; auto. apply IHForall2.
  Qed.

  Lemma w_type_attrs : forall td td' v, w_type td td' ->
    type_attrs x rec' ra_' td' v = type_attrs x rec ra_ td v.
  Proof.
    intros td td' v (_ & _ & Hd & _ & _ & Htag & Hb & _). unfold type_attrs. rewrite Htag.
    destruct (t_body td) as [fs|vs d|k], (t_body td') as [gs|ws d'|k']; simpl in Hb;
      try contradiction; try reflexivity.
    - destruct v; try reflexivity. apply w_append; assumption.
    - destruct v; try reflexivity. pose proof (w_nth_variant vs ws i Hb) as Hi.
      destruct (nth_error vs i) as [vr|], (nth_error ws i) as [vr'|]; try contradiction;
        try reflexivity.
      destruct Hi as [Hn _]. rewrite !vname_elem, Hn. reflexivity.
  Qed.

  Lemma w_inspector : forall td td' v s w, w_type td td' ->
    inspector x rec' td' v s w = inspector x rec td v s w.
  Proof.
    intros td td' v s w (_ & _ & Hd & _ & _ & Htag & Hb & _). unfold inspector.
    destruct (t_body td) as [fs|vs d|k], (t_body td') as [gs|ws d'|k']; simpl in Hb;
      try contradiction; try reflexivity.
    - destruct v; try reflexivity. apply w_ser_fields; assumption.
    - destruct v; try reflexivity. pose proof (w_nth_variant vs ws i Hb) as Hi.
      destruct (nth_error vs i) as [vr|], (nth_error ws i) as [vr'|]; try contradiction;
        try reflexivity.
      apply w_ser_variant; assumption.
  Qed.

  Lemma w_own_ns : forall ra ra',
    ya_default_namespace ra' = ya_default_namespace ra ->
    ya_namespaces ra' = ya_namespaces ra -> own_ns ra' = own_ns ra.
  Proof. intros ra ra' Hd Hn. unfold own_ns. rewrite Hd, Hn. reflexivity. Qed.

  Lemma w_derived : forall td td' v s w, w_type td td' ->
    ser_derived x rec' ra_' td' v s w = ser_derived x rec ra_ td v s w.
  Proof.
    intros td td' v s w H. unfold ser_derived. cbv zeta.
    pose proof H as (Hname & Hp & Hd & Hns & Hfl & _).
    assert (Hroot : ser_root td' = ser_root td).
    { unfold ser_root. fold (de_root td'). fold (de_root td).
      rewrite !tname_root, Hname, Hp, Hd. reflexivity. }
    apply sbind_ext; [reflexivity|]. intros skip. rewrite Hfl.
    apply sbind_ext.
    - destruct (_ && _)%bool; [|reflexivity]. apply sbind_ext; [reflexivity|]. intros o.
      rewrite (w_type_attrs td td' v H), Hroot, (w_own_ns _ _ Hd Hns). reflexivity.
    - intros _. apply sbind_ext; [|reflexivity]. intros. apply w_inspector. assumption.
  Qed.

  Lemma w_ser_body : forall id v s w,
    ser_body x E' rec' ra_' id v s w = ser_body x E rec ra_ id v s w.
  Proof.
    intros id v s w. unfold ser_body. pose proof (w_nth_type id) as Ht.
    destruct (nth_error E id) as [td|], (nth_error E' id) as [td'|]; try contradiction;
      try reflexivity.
    pose proof (w_derived td td' v s w Ht) as Hder.
    pose proof Ht as (_ & _ & _ & _ & _ & _ & Hb & Hprim).
    destruct (t_body td) as [fs|vs d|k] eqn:Hbody, (t_body td') as [gs|ws d'|k'];
      simpl in Hb; try contradiction; try assumption.
    subst k'. unfold ser_prim. rewrite (Hprim (ex_intro _ k Hbody)). reflexivity.
  Qed.

  Lemma w_attrs_body : forall id v,
    attrs_body x E' rec' ra_' id v = attrs_body x E rec ra_ id v.
  Proof.
    intros id v. unfold attrs_body. pose proof (w_nth_type id) as Ht.
    destruct (nth_error E id) as [td|], (nth_error E' id) as [td'|]; try contradiction;
      try reflexivity.
    rewrite (w_type_attrs td td' v Ht).
    pose proof Ht as (_ & _ & Hd & Hns & _ & _ & Hb & _).
    rewrite (w_own_ns _ _ Hd Hns).
    destruct (t_body td), (t_body td'); simpl in Hb; try contradiction; reflexivity.
  Qed.
End Writing.

Lemma w_all : forall x E E', write_alike E E' -> forall fuel,
  (forall id v s w, fst (ser_all x E' fuel) id v s w = fst (ser_all x E fuel) id v s w) /\
  (forall id v, snd (ser_all x E' fuel) id v = snd (ser_all x E fuel) id v).
Proof.
  intros x E E' HE fuel. induction fuel as [|fuel [IH1 IH2]]; simpl; [split; reflexivity|].
  split; intros.
  - apply w_ser_body; assumption.
  - apply w_attrs_body; assumption.
Qed.

Lemma names_ser : forall x E E', write_alike E E' ->
  forall id v sched w, ser x E' id v sched w = ser x E id v sched w.
Proof. intros x E E' HE id v sched w. unfold ser. apply w_all. assumption. Qed.

Lemma names_to_string : forall x E E', write_alike E E' ->
  forall c id v, to_string_with_config x E' c id v = to_string_with_config x E c id v.
Proof.
  intros x E E' HE c id v. unfold to_string_with_config, ser_events.
  rewrite (names_ser x E E' HE). reflexivity.
Qed.
