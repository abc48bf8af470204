(** * The emitter writes the text of the trees (C69). *)
From Verif Require Import Str Num Xml XmlText Reader Schema Ser SpecTree SpecText SpecEnc SpecPrint TextProofs EncProofs RoundNames.
Open Scope list_scope.

Lemma esc_text : forall s, esc_pcdata s = with_references in_text s.
Proof.
  induction s as [|c s IH]; [reflexivity|]. cbn [esc_pcdata with_references]. rewrite IH. unfold esc_pcdata_char, in_text. cbn [find fst].
  rewrite !(Ascii.eqb_sym c). repeat (match goal with |- context [Ascii.eqb ?a ?b] => destruct (Ascii.eqb a b) end; [reflexivity|]). reflexivity.
Qed.
Lemma esc_value : forall s, esc_attr s = with_references in_value s.
Proof.
  induction s as [|c s IH]; [reflexivity|]. cbn [esc_attr with_references]. rewrite IH. unfold esc_attr_char, in_value. cbn [find fst].
  rewrite !(Ascii.eqb_sym c).
  destruct (Ascii.eqb "<" c); [reflexivity|]. destruct (Ascii.eqb ">" c); [reflexivity|].
  destruct (Ascii.eqb "&" c) eqn:Ha.
  - apply Ascii.eqb_eq in Ha. subst c. reflexivity.
  - repeat (match goal with |- context [Ascii.eqb ?a ?b] => destruct (Ascii.eqb a b) end; [reflexivity|]). reflexivity.
Qed.
Lemma show_assigned : forall n v, show_attr (n, v) = assigned n v.
Proof. intros. unfold show_attr, assigned. cbn [fst snd]. rewrite esc_value. reflexivity. Qed.
Lemma concat_joined : forall l, String.concat "" l = joined l.
Proof.
  induction l as [|a l IH]; [reflexivity|]. destruct l as [|b l]; [cbn; symmetry; apply sapp_nil|].
  change (String.concat "" (a :: b :: l)) with (a +++ String.concat "" (b :: l)). rewrite IH. reflexivity.
Qed.
Lemma show_attrs_joined : forall l, show_attrs l = joined (map (fun b => assigned (tag_name (at_name b)) (at_value b)) l).
Proof.
  intros l. unfold show_attrs. rewrite concat_joined. f_equal. apply map_ext. intros b. apply show_assigned.
Qed.
Lemma show_ns_joined : forall m, show_ns m = joined (map declaration m).
Proof.
  intros m. unfold show_ns. rewrite concat_joined. f_equal. apply map_ext. intros [p u]. unfold show_ns1. cbn [fst snd].
  destruct (String.eqb_spec p "xml") as [->|N1]; [reflexivity|].
  destruct (String.eqb_spec p "xmlns") as [->|N2]; [reflexivity|].
  destruct (String.eqb_spec p "") as [->|N3].
  - destruct (String.eqb_spec u "") as [->|N4]; [reflexivity|]. destruct u; [congruence|]. apply show_assigned.
  - rewrite show_assigned. symmetry.
    assert (H : forall q : string, q <> "xml" -> q <> "xmlns" -> q <> "" -> declaration (q, u) = assigned ("xmlns:" +++ q) u).
    { clear. intros q H1 H2 H3. unfold declaration.
      repeat match goal with
      | |- context [match ?s with EmptyString => _ | String _ _ => _ end] => is_var s; destruct s
      | |- context [match ?c with Ascii _ _ _ _ _ _ _ _ => _ end] => is_var c; destruct c
      | |- context [if ?b then _ else _] => is_var b; destruct b
      end; try reflexivity; congruence. }
    apply H; assumption.
Qed.
Lemma put_bound : forall m p u, ns_sorted m -> ns_get m p = Some u -> ns_put m p u = m.
Proof.
  induction m as [|[q v] m IH]; intros p u Hs H; [discriminate H|]. destruct Hs as [Ha Hs]. cbn [ns_get] in H. cbn [ns_put].
  destruct (String.compare p q) eqn:Hc; [reflexivity| |].
  - exfalso. destruct (String.eqb_spec q p) as [->|N]; [rewrite compare_refl in Hc; discriminate Hc|].
    apply ns_get_in in H. specialize (Ha _ _ H). rewrite String.compare_antisym, Hc in Ha. discriminate Ha.
  - destruct (String.eqb_spec q p) as [->|N]; [rewrite compare_refl in Hc; discriminate Hc|]. rewrite IH by assumption. reflexivity.
Qed.
Lemma declare_bindings : forall st m, declare st m = bindings st m.
Proof.
  intros st m. unfold declare, bindings, ns_extend.
  assert (H : forall cur, ns_sorted cur ->
    fold_left (fun cur pu => if nss_has (cur :: st) (fst pu) (snd pu) then cur else ns_put cur (fst pu) (snd pu)) m cur =
    fold_left (fun acc pu => ns_put acc (fst pu) (snd pu))
      (filter (fun b => negb (existsb (fun o => bound_on o (fst b) (snd b)) st)) m) cur); [|apply H; exact I].
  induction m as [|[p u] m IH]; intros cur Hs; [reflexivity|]. cbn [fold_left filter fst snd].
  unfold nss_has at 2. cbn [existsb].
  assert (He : existsb (fun m => match ns_get m p with Some v => String.eqb v u | None => false end) st =
               existsb (fun o => bound_on o p u) st).
  { clear. induction st as [|o st IH]; [reflexivity|]. cbn [existsb]. rewrite IH. f_equal. unfold bound_on. destruct (ns_get o p); [apply String.eqb_sym|reflexivity]. }
  rewrite He. destruct (existsb (fun o => bound_on o p u) st) eqn:Hx; cbn [negb].
  - rewrite Bool.orb_true_r. apply IH. exact Hs.
  - rewrite Bool.orb_false_r. cbn [fold_left fst snd].
    destruct (ns_get cur p) as [v|] eqn:Hg; [destruct (String.eqb_spec v u) as [->|N]|].
    + rewrite put_bound by assumption. apply IH. exact Hs.
    + apply IH. apply ns_put_sorted. exact Hs.
    + apply IH. apply ns_put_sorted. exact Hs.
Qed.

Lemma repeat_joined : forall i n, repeat_str n i = joined (repeat i n).
Proof. intros i n. induction n as [|n IH]; [reflexivity|]. cbn [repeat_str repeat joined]. rewrite IH. reflexivity. Qed.

Definition after (w : wnode) (f : bool * bool) : bool * bool := if is_element w then (true, snd f) else (fst f, true).
Definition lead (c : econf) (lvl : nat) (f : bool * bool) (w : wnode) : string :=
  if (is_element w && (Nat.ltb 0 lvl || fst f) && negb (snd f))%bool then new_line (ec_indent c) lvl else "".
Definition closing (just : bool) : string := if just then ">" else "".

Lemma before_start : forall c just names nss f fl n a m ks,
  indent_before_start c (Emst just names nss (f :: fl)) = lead c (List.length names) f (WElem n a m ks).
Proof.
  intros. unfold indent_before_start, lead, new_line. destruct f as [mk tx]. cbn [em_flags top_flags em_names is_element fst snd andb].
  destruct (ec_indent c) as [i|]; [|destruct (_ && _)%bool; reflexivity].
  rewrite Bool.andb_comm. destruct (_ && _)%bool; [|reflexivity]. rewrite repeat_joined. reflexivity.
Qed.

(** Trees in the middle of what is written. *)
Definition prints (c : econf) (w : wnode) : Prop := forall just names nss f fl rest,
  emit_from c (Emst just names nss (f :: fl)) (wtree w ++ rest) =
  closing just +++ lead c (List.length names) f w +++ print (ec_indent c) (List.length names) nss w
    +++ emit_from c (Emst false names nss (after w f :: fl)) rest.

Lemma prints_all : forall c l, Forall (prints c) l -> forall names nss f fl rest, l <> [] ->
  forall just,
  emit_from c (Emst just names nss (f :: fl)) (flat_map wtree l ++ rest) =
  closing just +++ print_all (ec_indent c) (print (ec_indent c)) (List.length names) nss
                     (negb (Nat.ltb 0 (List.length names) || fst f)) (snd f) l
    +++ emit_from c (Emst false names nss (fold_left (fun g w => after w g) l f :: fl)) rest.
Proof.
  intros c l Hl. induction Hl as [|w l Hw Hl IH]; intros names nss f fl rest Hn just; [congruence|].
  cbn [flat_map print_all fold_left]. rewrite <- app_assoc, Hw.
  assert (Hlead : lead c (List.length names) f w =
    (if (is_element w && negb (negb (Nat.ltb 0 (List.length names) || fst f)) && negb (snd f))%bool then new_line (ec_indent c) (List.length names) else "")).
  { unfold lead. rewrite Bool.negb_involutive. reflexivity. }
  rewrite <- Hlead. destruct l as [|w' l].
  - cbn [flat_map app print_all fold_left]. rewrite !sapp_assoc. reflexivity.
  - rewrite (IH names nss (after w f) fl rest ltac:(discriminate) false). cbn [closing]. rewrite !sapp_assoc.
    do 3 f_equal. cbn [String.append]. f_equal.
    f_equal; unfold after; destruct (is_element w); cbn [fst snd negb];
      rewrite ?Bool.orb_true_r, ?Bool.orb_false_r, ?Bool.andb_false_r, ?Bool.andb_true_r; reflexivity.
Qed.

Lemma after_kids : forall l f, l <> [] ->
  let g := fold_left (fun g w => after w g) l f in
  (fst g && negb (snd g))%bool = (forallb is_element l && negb (snd f))%bool.
Proof.
  induction l as [|w l IH]; intros f Hn; [congruence|]. cbn [fold_left forallb].
  destruct l as [|w' l].
  - cbn [fold_left forallb]. unfold after. destruct (is_element w); cbn; [reflexivity|apply Bool.andb_false_r].
  - rewrite IH by discriminate. unfold after. destruct (is_element w); cbn [snd andb negb]; [reflexivity|apply Bool.andb_false_r].
Qed.

Lemma tree_prints : forall c w, prints c w.
Proof.
  intros c w. induction w as [s|s|n a m ks IH] using wnode_ind'; intros just names nss f fl rest.
  - cbn [wtree app emit_from emit1 em_just em_names em_nss em_flags set_text_flag]. destruct f as [mk tx]. cbn [set_text_flag].
    unfold lead, after. cbn [is_element andb print fst snd]. rewrite esc_text, !sapp_assoc. reflexivity.
  - cbn [wtree app emit_from emit1 em_just em_names em_nss em_flags set_text_flag]. destruct f as [mk tx]. cbn [set_text_flag].
    unfold lead, after. cbn [is_element andb print fst snd]. rewrite !sapp_assoc. reflexivity.
  - cbn [wtree]. rewrite <- app_comm_cons. cbn [emit_from emit1]. rewrite (before_start _ _ _ _ _ _ n a m ks). cbn [em_just em_names em_nss em_flags].
    change (if just then ">" else "") with (closing just).
    rewrite declare_bindings. cbn [print]. rewrite !sapp_assoc. do 3 f_equal.
    rewrite show_ns_joined, show_attrs_joined. unfold name_repr at 1. fold (tag_name n). do 4 f_equal.
    destruct f as [mk tx]. cbn [set_markup]. rewrite <- app_assoc.
    destruct ks as [|k ks].
    + cbn [flat_map app emit_from emit1 em_names em_just em_nss em_flags tl set_markup]. unfold after. cbn [is_element snd]. reflexivity.
    + rewrite (prints_all c (k :: ks) (proj2 (Forall_forall _ _) IH) (n :: names) (bindings nss m :: nss) (false, false) ((true, tx) :: fl) ([WEnd None] ++ rest) ltac:(discriminate) true).
      cbn [closing]. rewrite !sapp_assoc. cbn [List.length fst snd negb Nat.ltb Nat.leb orb]. do 2 f_equal.
      cbn [app emit_from emit1 em_names em_just em_nss em_flags tl set_markup]. rewrite !sapp_assoc.
      unfold after at 2. cbn [is_element snd]. f_equal.
      unfold indent_before_end. cbn [em_flags top_flags em_names List.length].
      pose proof (after_kids (k :: ks) (false, false) ltac:(discriminate)) as Hk. cbv zeta in Hk. cbn [snd negb] in Hk. rewrite Bool.andb_true_r in Hk.
      destruct (fold_left (fun g w => after w g) (k :: ks) (false, false)) as [mk' tx']. cbn [fst snd] in Hk. rewrite Hk.
      unfold new_line. destruct (ec_indent c) as [i|]; [|destruct (forallb is_element (k :: ks)); reflexivity].
      rewrite Nat.sub_succ, Nat.sub_0_r, repeat_joined. destruct (forallb is_element (k :: ks)); reflexivity.
Qed.

Theorem emit_page : forall c ts, emit_text (econf_of c) (flat_map wtree ts) = page c ts.
Proof.
  intros c [|w ts]; [reflexivity|]. unfold page, emit_text.
  assert (Hf : Forall (prints (econf_of c)) (w :: ts)) by (apply Forall_forall; intros w' _; apply tree_prints).
  pose proof (prints_all _ _ Hf [] [] (c_decl c, false) [] [] ltac:(discriminate) false) as H.
  rewrite app_nil_r in H. cbn [closing List.length fst snd Nat.ltb Nat.leb orb] in H.
  destruct (flat_map wtree (w :: ts)) as [|e l] eqn:He; [exfalso; destruct w; cbn in He; discriminate He|].
  unfold em0. change (ec_decl (econf_of c)) with (c_decl c). rewrite H. cbn [emit_from]. rewrite sapp_nil. reflexivity.
Qed.

Theorem text_page : forall x E c id v s,
  to_string_with_config x E c id v = SOk s <-> exists ts, encode x E id v (Under None) = Some ts /\ s = page c ts.
Proof.
  intros x E c id v s. unfold to_string_with_config. pose proof (ser_events_encode x E id v) as H.
  destruct (encode x E id v (Under None)) as [ts|].
  - rewrite H. cbn [sbind_pure]. rewrite emit_page. split; [intros [= <-]; eauto|intros (ts' & [= <-] & ->); reflexivity].
  - split; [|intros (ts' & Hn & _); discriminate Hn].
    destruct (ser_events x E id v) as [l|m|]; cbn; try discriminate. destruct (H l eq_refl).
Qed.
