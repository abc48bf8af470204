(** * Fields of the types [usize], [isize] and [char] (C71). *)
From Verif Require Import Str Num Xml XmlText Reader Schema Ser SpecText SpecEnc EncProofs SpecPrint PrintProofs SpecOwn OwnWrite TextProofs SpecStd.
Open Scope list_scope.

Lemma std_written : forall x k v h, Writes (fun _ => false) h (std_writer x k v) (omap (fun t => [WTxt t]) (std_text x k v)).
Proof.
  intros x k v h w Hw. unfold std_writer. destruct (std_text x k v) as [t|]; cbn [omap]; [|discriminate].
  rewrite calls_never. eexists _, _. split; [reflexivity|]. cbn [w_evs w_stack w_calls].
  split; [reflexivity|]. split; [reflexivity|]. split; [reflexivity|]. cbn. lia.
Qed.

Lemma std_all : forall x s, AllWrite (fun _ => false) (std_writers x s) (std_trees x s).
Proof.
  intros x s id. unfold std_writers, std_trees. destruct (s id) as [k|]; [|exact I].
  split; [intros v h; apply std_written|reflexivity].
Qed.

Theorem std_page : forall x E s n c id v t,
  std_document x E s n c id v = SOk t <->
  exists ts, fst (enc_with x E (std_trees x s) n) id v (Under None) = Some ts /\ t = page c ts.
Proof.
  intros x E s n c id v t. unfold std_document.
  pose proof (own_events x E (std_writers x s) (std_trees x s) n id v (std_all x s)) as H.
  destruct (fst (enc_with x E (std_trees x s) n) id v (Under None)) as [ts|].
  - destruct H as (w & -> & ->). rewrite emit_page. split.
    + intros [= <-]. exists ts. auto.
    + intros (ts' & [= <-] & ->). reflexivity.
  - split.
    + intros Ht. exfalso. apply H.
      destruct (fst (ser_with x E (std_writers x s) n) id v (fun _ => false) w_init) as [[[]|e|] w]; try discriminate. reflexivity.
    + intros (ts & [=] & _).
Qed.

Lemma trees_std : forall x E s n i k v h, s i = Some k ->
  fst (enc_with x E (std_trees x s) n) i v h = omap (fun t => [WTxt t]) (std_text x k v).
Proof. intros x E s n i k v h H. destruct n; cbn [enc_with fst]; unfold std_trees at 1; rewrite H; reflexivity. Qed.

Lemma std_tag : forall x E s n ra self fs vs ts, std_fields x s fs vs ts ->
  enc_tag x (fst (enc_with x E (std_trees x s) n)) (snd (enc_with x E (std_trees x s) n)) ra self fs vs
  = Some (std_attributes ra fs ts, [], []).
Proof.
  intros x E s n ra self fs vs ts H. induction H as [|f v t fs vs ts Hf _ IH]; [reflexivity|].
  destruct Hf as ((i & k & Hty & Hs & Ht) & Htx & Hcd & Hfl & Hsk & Hif & Hde).
  cbn [enc_tag]. rewrite IH. unfold std_attributes. cbn [combine flat_map fst snd].
  destruct (ya_attribute (f_attrs f)); [|rewrite Hfl; reflexivity].
  unfold enc_attr. rewrite Hty. cbn [attr_show]. rewrite (trees_std _ _ _ _ _ k) by exact Hs. rewrite Ht. cbn [omap].
  unfold left_out. rewrite Hif, Hde. cbn [andb orb]. f_equal. f_equal. f_equal. f_equal. f_equal. f_equal.
  rewrite <- esc_text. cbn. rewrite sapp_nil. reflexivity.
Qed.

Lemma std_inside : forall x E s n ra self fs vs ts, std_fields x s fs vs ts ->
  enc_fields x (fst (enc_with x E (std_trees x s) n)) ra self fs vs = Some (std_content fs ts).
Proof.
  intros x E s n ra self fs vs ts H. induction H as [|f v t fs vs ts Hf _ IH]; [reflexivity|].
  destruct Hf as ((i & k & Hty & Hs & Ht) & Htx & Hcd & Hfl & Hsk & Hif & Hde).
  cbn [enc_fields]. rewrite IH. unfold std_content. cbn [combine flat_map fst snd].
  unfold enc_field. rewrite Htx, Hcd, Hfl, Hty. destruct (ya_attribute (f_attrs f)); [reflexivity|].
  unfold left_out. rewrite Hsk, Hif, Hde. cbn [andb orb]. rewrite (trees_std _ _ _ _ _ k) by exact Hs. rewrite Ht. reflexivity.
Qed.

Theorem std_struct : forall x E s n c id td fs vs ts,
  nth_error E id = Some td -> t_body td = DStruct fs -> s id = None -> ya_flatten (t_attrs td) = false ->
  std_fields x s fs vs ts ->
  std_document x E s (S n) c id (VRec vs)
  = SOk (page c [WElem (qname (ser_root td)) (std_attributes (t_attrs td) fs ts) (declared (t_attrs td)) (std_content fs ts)]).
Proof.
  intros x E s n c id td fs vs ts Hn Hb Hs Hfl Hv. apply std_page. eexists. split; [|reflexivity].
  cbn [enc_with fst]. unfold std_trees at 1. rewrite Hs. unfold enc_type. rewrite Hn, Hb, Hfl.
  unfold enc_start, enc_content. rewrite Hb.
  rewrite (std_tag x E s n (t_attrs td) (VRec vs) fs vs ts Hv), (std_inside x E s n (t_attrs td) (VRec vs) fs vs ts Hv).
  cbn [opt_default]. rewrite app_nil_r. reflexivity.
Qed.

(** ** Which values are told apart *)

Lemma content_length : forall x s fs vs ts, std_fields x s fs vs ts ->
  (forall f, In f fs -> ya_attribute (f_attrs f) = false) -> std_content fs ts = map WTxt ts /\ List.length ts = List.length fs.
Proof.
  intros x s fs vs ts H. induction H as [|f v t fs vs ts Hf _ IH]; intros Hat; [split; reflexivity|].
  unfold std_content. cbn [combine flat_map fst snd map List.length]. rewrite (Hat f (or_introl eq_refl)).
  destruct IH as [IH1 IH2]; [intros g Hg; apply Hat; right; exact Hg|].
  unfold std_content in IH1. rewrite IH1, IH2. split; reflexivity.
Qed.
Lemma attributes_none : forall x s ra fs vs ts, std_fields x s fs vs ts ->
  (forall f, In f fs -> ya_attribute (f_attrs f) = false) -> std_attributes ra fs ts = [].
Proof.
  intros x s ra fs vs ts H. induction H as [|f v t fs vs ts Hf _ IH]; intros Hat; [reflexivity|].
  unfold std_attributes. cbn [combine flat_map fst snd]. rewrite (Hat f (or_introl eq_refl)).
  apply IH. intros g Hg. apply Hat. right; exact Hg.
Qed.

Lemma texts_printed : forall ind lvl outer ts b c,
  print_all ind (print ind) lvl outer b c (map WTxt ts) = with_references in_text (joined ts).
Proof.
  intros ind lvl outer ts. induction ts as [|t ts IH]; intros b c; [reflexivity|].
  cbn [map print_all print is_element andb negb joined]. rewrite IH. rewrite <- !esc_text, esc_pcdata_app. reflexivity.
Qed.

Lemma sapp_inv_head : forall a b c : string, a +++ b = a +++ c -> b = c.
Proof. induction a as [|h a IH]; intros b c H; [exact H|]. injection H as H. apply IH. exact H. Qed.
Lemma length_sapp : forall a b : string, String.length (a +++ b) = (String.length a + String.length b)%nat.
Proof. induction a as [|h a IH]; intros b; [reflexivity|]. cbn. f_equal. apply IH. Qed.
Lemma sapp_inv_tail : forall a b c : string, a +++ c = b +++ c -> a = b.
Proof.
  induction a as [|h a IH]; intros [|k b] c H; try reflexivity.
  - exfalso. apply (f_equal String.length) in H. rewrite !length_sapp in H. cbn in H. lia.
  - exfalso. apply (f_equal String.length) in H. rewrite !length_sapp in H. cbn in H. lia.
  - cbn in H. injection H as <- H. f_equal. apply (IH _ c). exact H.
Qed.
Lemma references_inj : forall a b, with_references in_text a = with_references in_text b -> a = b.
Proof.
  intros a b H. rewrite <- !esc_text in H. apply (f_equal unesc) in H. rewrite !unesc_pcdata in H. injection H as H. exact H.
Qed.

Lemma texts_elements : forall ts, ts <> [] -> forallb is_element (map WTxt ts) = false.
Proof. intros [|t ts] H; [destruct (H eq_refl)|reflexivity]. Qed.

Theorem std_alike : forall x E s n c id td fs vs vs' ts ts',
  nth_error E id = Some td -> t_body td = DStruct fs -> s id = None -> ya_flatten (t_attrs td) = false ->
  (forall f, In f fs -> ya_attribute (f_attrs f) = false) ->
  std_fields x s fs vs ts -> std_fields x s fs vs' ts' ->
  (std_document x E s (S n) c id (VRec vs) = std_document x E s (S n) c id (VRec vs') <-> joined ts = joined ts').
Proof.
  intros x E s n c id td fs vs vs' ts ts' Hn Hb Hs Hfl Hat Hv Hv'.
  rewrite (std_struct x E s n c id td fs vs ts), (std_struct x E s n c id td fs vs' ts') by assumption.
  destruct (content_length _ _ _ _ _ Hv Hat) as [-> Hl]. destruct (content_length _ _ _ _ _ Hv' Hat) as [-> Hl'].
  rewrite (attributes_none _ _ _ _ _ _ Hv Hat), (attributes_none _ _ _ _ _ _ Hv' Hat).
  destruct fs as [|f fs].
  { destruct ts; [|discriminate Hl]. destruct ts'; [|discriminate Hl']. split; reflexivity. }
  assert (Hts : ts <> []) by (intros ->; discriminate Hl).
  assert (Hts' : ts' <> []) by (intros ->; discriminate Hl').
  unfold page. cbn [print_all print is_element].
  destruct ts as [|t0 tr] eqn:Et; [destruct (Hts eq_refl)|]. rewrite <- Et in *. clear Hl.
  destruct ts' as [|t0' tr'] eqn:Et'; [destruct (Hts' eq_refl)|]. rewrite <- Et' in *. clear Hl'.
  assert (Hm : forall l (A B : string), l <> [] -> match map WTxt l with [] => A | _ :: _ => B end = B)
    by (intros [|q l] A B Hq; [destruct (Hq eq_refl)|reflexivity]).
  rewrite !Hm by assumption. rewrite !texts_elements by assumption. rewrite !texts_printed.
  split.
  - intros [= H]. repeat (apply sapp_inv_head in H; try (injection H as H)).
    rewrite !sapp_nil in H. do 2 apply sapp_inv_head in H. injection H as H.
    apply sapp_inv_tail in H. apply references_inj. exact H.
  - intros ->. reflexivity.
Qed.

(** ** Alone *)

(** A text without '<' after the declaration is no document. *)
Definition bare (st : pst) : Prop :=
  (exists m, p_mode st = MFail m) \/ (p_mode st = MContent /\ p_stack st = [] /\ p_seen st = false).
Lemma bare_step : forall st c, bare st -> Ascii.eqb c "<" = false -> bare (pstep st c).
Proof.
  intros st c [[m H]|(H & H1 & H2)] Hc; unfold pstep; rewrite H.
  - destruct (illegal_char c); left; exists m; exact H.
  - destruct (illegal_char c); [left; eexists; reflexivity|]. rewrite Hc. right. auto.
Qed.
Lemma bare_run : forall s st, bare st -> all_chars (fun c => negb (Ascii.eqb c "<")) s = true -> bare (prun st s).
Proof.
  induction s as [|c s IH]; intros st H Hs; [exact H|].
  cbn [all_chars] in Hs. apply Bool.andb_true_iff in Hs. destruct Hs as [Hc Hs]. cbn [prun].
  apply IH; [|exact Hs]. apply bare_step; [exact H|]. destruct (Ascii.eqb c "<"); [discriminate Hc|reflexivity].
Qed.
Lemma bare_end : forall st, bare st -> exists m, s_fin (pfinish st) = FErr m.
Proof.
  intros st [[m H]|(H & H1 & H2)]; unfold pfinish; rewrite H; [eexists; reflexivity|].
  unfold end_raw. destruct (unesc (p_raw st)) as [d|].
  - destruct st as [? ? ? ? ? ? ? nw ?]; cbn in *; subst. destruct (nw || str_nonws d)%bool; eexists; reflexivity.
  - cbn. eexists; reflexivity.
Qed.
Lemma esc_no_tag : forall s, all_chars (fun c => negb (Ascii.eqb c "<")) (esc_pcdata s) = true.
Proof.
  induction s as [|c s IH]; [reflexivity|]. cbn [esc_pcdata]. rewrite all_chars_app, IH, Bool.andb_true_r.
  unfold esc_pcdata_char. destruct (Ascii.eqb c "<") eqn:H1; [reflexivity|].
  destruct (Ascii.eqb c ">"); [reflexivity|]. destruct (Ascii.eqb c "&"); [reflexivity|].
  cbn [all_chars]. rewrite H1. reflexivity.
Qed.

Theorem std_root : forall x E s n c id k v t, s id = Some k -> std_text x k v = Some t ->
  std_document x E s n c id v
    = SOk ((if c_decl c then "<?xml version=""1.0"" encoding=""utf-8""?>" else "") +++ with_references in_text t) /\
  exists m, s_fin (parse_text ((if c_decl c then "<?xml version=""1.0"" encoding=""utf-8""?>" else "")
                               +++ with_references in_text t)) = FErr m.
Proof.
  intros x E s n c id k v t Hs Ht. split.
  - apply std_page. exists [WTxt t]. split.
    + rewrite (trees_std _ _ _ _ _ k) by exact Hs. rewrite Ht. reflexivity.
    + unfold page. cbn [print_all print is_element andb]. rewrite sapp_nil. reflexivity.
  - unfold parse_text. rewrite prun_app. apply bare_end. apply bare_run.
    + right. destruct (c_decl c); vm_compute; auto.
    + rewrite <- esc_text. apply esc_no_tag.
Qed.

(** ** Errors *)
Theorem std_silent : forall x k v t sched w, std_text x k v = Some t ->
  exists w', std_writer x k v sched w = (SOk tt, w') /\
  (sched (w_calls w) = true -> w_evs w' = w_evs w).
Proof.
  intros x k v t sched w Ht. unfold std_writer. rewrite Ht. unfold swallow, write.
  destruct (sched (w_calls w)); eexists; (split; [reflexivity|]); intros H; [reflexivity|discriminate H].
Qed.

(** ** What the macros take for a type of the user *)
From Verif Require Import Macro SpecMacro MacroProofs.
Lemma user_path : forall segs n args, (forall m, ~ In (n, m) prelude) ->
  from_path (RPath (segs ++ [(n, args)])) = MOk (KUser (segs ++ [(n, args)])).
Proof.
  intros segs n args H. rewrite from_path_last. unfold last_kind.
  destruct (simple_named n) as [s|] eqn:Hs; [exfalso; exact (H _ (simple_named_prelude _ _ Hs))|].
  destruct (String.eqb_spec n "Option") as [->|_]; [exfalso; apply (H IsOption); cbn; tauto|].
  destruct (String.eqb_spec n "Vec") as [->|_]; [exfalso; apply (H IsVec); cbn; tauto|]. reflexivity.
Qed.
