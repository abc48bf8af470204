(** * Indentation never changes what is read (C37).

    The parser is run on the indented and on the plain text side by side.
    Nothing is assumed about the characters in texts, attribute values and
    CDATA sections, so the parser may see other markup than the emitter meant
    to write; the two runs stay together all the same, up to the contents of
    processing instructions. *)
From Verif Require Import Str Num Xml XmlText Reader Schema De Ser SpecReader SpecTree SpecText SpecNum SpecTyped SpecStruct TextProofs SpecEnc SpecSer EncProofs
  SerProofs SpecValue SpecRound SpecOut ReaderProofs.
Open Scope list_scope.

(** ** Runs that differ in processing instructions only *)
Definition pi_ends (s : string) : bool :=
  (Nat.leb 2 (String.length s) && String.eqb (substring (String.length s - 2) 2 s) "?>")%bool.
Definition pi_like (a b : string) : Prop :=
  (forall t, pi_kind (a +++ t) = pi_kind (b +++ t)) /\
  (forall t, t <> "" -> pi_ends (a +++ t) = pi_ends (b +++ t)).
Inductive mode_like : pmode -> pmode -> Prop :=
| ml_same : forall m, mode_like m m
| ml_pi : forall a b, pi_like a b -> mode_like (MPI a) (MPI b).
Definition like_full (p q : pst) : Prop :=
  mode_like (p_mode p) (p_mode q) /\ strip (p_out p) = strip (p_out q) /\
  p_stack p = p_stack q /\ p_names p = p_names q /\ p_nss p = p_nss q /\ p_raw p = p_raw q /\
  p_buf p = p_buf q /\ p_nonws p = p_nonws q /\ p_seen p = p_seen q.
(** Runs that have failed cannot be told apart by what they have buffered. *)
Definition like_failed (p q : pst) : Prop :=
  (exists m, p_mode p = MFail m /\ p_mode q = MFail m) /\ strip (p_out p) = strip (p_out q).
Definition like (p q : pst) : Prop := like_full p q \/ like_failed p q.

Lemma pi_like_refl : forall a, pi_like a a.
Proof. split; reflexivity. Qed.
Lemma pi_like_sym : forall a b, pi_like a b -> pi_like b a.
Proof. intros a b [H1 H2]. split; intros; symmetry; auto. Qed.
Lemma pi_like_trans : forall a b c, pi_like a b -> pi_like b c -> pi_like a c.
Proof. intros a b c [H1 H2] [H3 H4]. split; intros; [rewrite H1|rewrite H2 by assumption]; auto. Qed.
Lemma pi_like_add : forall a b c, pi_like a b -> pi_like (add1 a c) (add1 b c).
Proof.
  intros a b c [H1 H2]. split; intros; unfold add1; rewrite !sapp_assoc; [apply H1|apply H2; discriminate].
Qed.

Lemma like_refl : forall p, like p p.
Proof. intros p. left. repeat split; try reflexivity. apply ml_same. Qed.
Lemma like_sym : forall p q, like p q -> like q p.
Proof.
  intros p q [(Hm & H)|[(m & H1 & H2) H]].
  - left. split; [|intuition auto]. inversion Hm; subst; [apply ml_same|apply ml_pi, pi_like_sym; assumption].
  - right. split; [exists m; auto|congruence].
Qed.
Lemma mode_like_trans : forall a b c, mode_like a b -> mode_like b c -> mode_like a c.
Proof.
  intros a b c H1 H2. inversion H1; subst; [exact H2|]. inversion H2; subst; [exact H1|].
  apply ml_pi. eapply pi_like_trans; eassumption.
Qed.
Lemma mode_like_fail : forall a b m, mode_like a b -> a = MFail m -> b = MFail m.
Proof. intros a b m H ->. inversion H; subst; reflexivity. Qed.
Lemma like_trans : forall p q r, like p q -> like q r -> like p r.
Proof.
  intros p q r [(Hm & H)|[(m & H1 & H2) H]] [(Hm' & H')|[(m' & H1' & H2') H']].
  - left. split; [eapply mode_like_trans; eassumption|]. intuition congruence.
  - right. split; [|destruct H; congruence]. exists m'. split; [|exact H2']. inversion Hm; congruence.
  - right. split; [|destruct H'; congruence]. exists m. split; [exact H1|]. eapply mode_like_fail; eassumption.
  - right. split; [exists m; split; [exact H1|congruence]|congruence].
Qed.

Lemma strip_app : forall a b, strip (a ++ b) = strip a ++ strip b.
Proof. intros. apply filter_app. Qed.

Lemma like_full_step : forall p q c, like_full p q -> like_full (pstep p c) (pstep q c).
Proof.
  intros p q c H. destruct p as [m o st nm ns rw bf nw se], q as [m' o' st' nm' ns' rw' bf' nw' se'].
  destruct H as (Hm & Ho & H3 & H4 & H5 & H6 & H7 & H8 & H9).
  cbn [p_mode p_out p_stack p_names p_nss p_raw p_buf p_nonws p_seen] in *. subst st' nm' ns' rw' bf' nw' se'.
  unfold pstep. cbn [p_mode]. destruct Hm as [m|a b Hab].
  - destruct (illegal_char c).
    { destruct m; (split; [apply ml_same|]); repeat split; assumption. }
    destruct m;
      unfold set_mode, pfail, end_raw, flush, start_tag, end_tag, set_mode, pfail;
      cbn [p_mode p_out p_stack p_names p_nss p_raw p_buf p_nonws p_seen];
      repeat match goal with
             | |- like_full (if ?b then _ else _) (if ?b then _ else _) => destruct b
             | |- like_full (match ?b with _ => _ end) (match ?b with _ => _ end) => destruct b
             end;
      (split; [apply ml_same|]); cbn [p_mode p_out p_stack p_names p_nss p_raw p_buf p_nonws p_seen];
      rewrite ?strip_app, ?Ho; repeat split; assumption || reflexivity.
  - destruct (illegal_char c); [split; [apply ml_same|]; repeat split; assumption|].
    change (like_full (if pi_ends (add1 a c) then
                    match pi_kind (add1 a c) with
                    | Some d => if (d && negb se)%bool then Pst MContent o st nm ns rw bf nw se
                                else Pst (MFail "Invalid processing instruction: <?xml") o st nm ns rw bf nw se
                    | None => Pst MContent (o ++ [EPI (add1 a c)]) st nm ns rw bf nw se
                    end
                  else Pst (MPI (add1 a c)) o st nm ns rw bf nw se)
                 (if pi_ends (add1 b c) then
                    match pi_kind (add1 b c) with
                    | Some d => if (d && negb se)%bool then Pst MContent o' st nm ns rw bf nw se
                                else Pst (MFail "Invalid processing instruction: <?xml") o' st nm ns rw bf nw se
                    | None => Pst MContent (o' ++ [EPI (add1 b c)]) st nm ns rw bf nw se
                    end
                  else Pst (MPI (add1 b c)) o' st nm ns rw bf nw se)).
    destruct Hab as [Hx He]. pose proof (Hx (String c "")) as Hx1. pose proof (He (String c "") ltac:(discriminate)) as He1.
    fold (add1 a c) in Hx1, He1. fold (add1 b c) in Hx1, He1. rewrite Hx1, He1.
    destruct (pi_ends (add1 b c)); [destruct (pi_kind (add1 b c)) as [d|]; [destruct (d && negb se)%bool|]|].
    + split; [apply ml_same|]. repeat split; assumption.
    + split; [apply ml_same|]. repeat split; assumption.
    + split; [apply ml_same|]. cbn [p_out]. rewrite !strip_app, Ho. repeat split; reflexivity.
    + split; [apply ml_pi, pi_like_add; split; assumption|]. repeat split; assumption.
Qed.
Lemma fail_step : forall p c m, p_mode p = MFail m -> pstep p c = p.
Proof. intros p c m H. unfold pstep. rewrite H. destruct (illegal_char c); reflexivity. Qed.
Lemma pfail_step : forall p c m, pstep (pfail p m) c = pfail p m.
Proof. intros. eapply fail_step. reflexivity. Qed.
Lemma like_step : forall p q c, like p q -> like (pstep p c) (pstep q c).
Proof.
  intros p q c [H|[(m & H1 & H2) H]]; [left; apply like_full_step; exact H|].
  right. rewrite (fail_step _ _ _ H1), (fail_step _ _ _ H2). split; [exists m; auto|exact H].
Qed.
Lemma like_run : forall s p q, like p q -> like (prun p s) (prun q s).
Proof. induction s as [|c s IH]; intros p q H; [exact H|]. cbn [prun]. apply IH, like_step, H. Qed.

Lemma like_finish : forall p q, like p q ->
  strip (s_evs (pfinish p)) = strip (s_evs (pfinish q)) /\ s_fin (pfinish p) = s_fin (pfinish q).
Proof.
  intros p q [H|[(m & H1 & H2) H]].
  2:{ unfold pfinish. rewrite H1, H2. split; [exact H|reflexivity]. }
  destruct p as [m o st nm ns rw bf nw se], q as [m' o' st' nm' ns' rw' bf' nw' se'].
  destruct H as (Hm & Ho & H3 & H4 & H5 & H6 & H7 & H8 & H9).
  cbn [p_mode p_out p_stack p_names p_nss p_raw p_buf p_nonws p_seen] in *. subst st' nm' ns' rw' bf' nw' se'.
  unfold pfinish. cbn [p_mode]. destruct Hm as [m|a b Hab]; [|split; [exact Ho|reflexivity]].
  destruct m; try (split; [exact Ho|reflexivity]).
  unfold end_raw. cbn [p_raw]. destruct (unesc rw) as [t|]; [|split; [exact Ho|reflexivity]].
  cbn [p_mode p_out p_stack p_names p_nss p_raw p_buf p_nonws p_seen].
  destruct st; [destruct (nw || str_nonws t)%bool; [|destruct se]|]; split; reflexivity || exact Ho.
Qed.

(** ** Where the parser stands between two pieces of text *)
Definition settled (p : pst) : Prop :=
  match p_mode p with MTagOpen | MBang _ | MCData _ => False | _ => True end.

Lemma settled_fail : forall p m, settled (pfail p m).
Proof. intros. exact I. Qed.
Lemma settled_start : forall p q a e, settled (start_tag p q a e).
Proof.
  intros. unfold start_tag. destruct (bad_tag _ a); [exact I|].
  destruct (resolve_elem _ q); [|exact I]. destruct (resolve_attrs _ a); [|exact I]. destruct e; exact I.
Qed.
Lemma settled_end : forall p q, settled (end_tag p q).
Proof.
  intros. unfold end_tag. destruct (p_stack p); [exact I|]. destruct (p_names p); [exact I|].
  destruct (p_nss p); [exact I|]. destruct (String.eqb s q); exact I.
Qed.
Lemma settled_flush : forall p m, settled (set_mode p m) -> settled (flush p m).
Proof. intros p m H. unfold flush. destruct (p_nonws p); [destruct (p_stack p); [exact I|]|]; exact H. Qed.

(** Any character but '<'. *)
Lemma settled_step : forall p c, c <> "<"%char -> settled p -> settled (pstep p c).
Proof.
  intros p c Hc H. unfold pstep. destruct (illegal_char c).
  { destruct (p_mode p) eqn:Hm; try exact I. exact H. }
  destruct (p_mode p) eqn:Hm; unfold settled in H; rewrite Hm in H; try tauto;
    repeat match goal with
           | |- settled (if Ascii.eqb c "<" then _ else _) => destruct (Ascii.eqb_spec c "<"); [contradiction|]
           | |- settled (if ?b then _ else _) => destruct b
           | |- settled (start_tag _ _ _ _) => apply settled_start
           | |- settled (end_tag _ _) => apply settled_end
           | |- settled (match unesc ?b with _ => _ end) => destruct (unesc b)
           | |- settled (match pi_kind ?b with _ => _ end) => destruct (pi_kind b)
           end; try exact I;
    unfold settled; cbn [p_mode set_mode]; rewrite ?Hm; exact I.
Qed.
Lemma settled_run : forall s p, no_open s -> settled p -> settled (prun p s).
Proof.
  induction s as [|c s IH]; intros p Hs Hp; [exact Hp|]. unfold no_open in Hs. cbn [all_chars] in Hs.
  apply andb_true_iff in Hs. destruct Hs as [Hc Hs]. cbn [prun]. apply IH; [exact Hs|]. apply settled_step; [|exact Hp].
  intros ->. discriminate.
Qed.

(** '<' and one more character, not '!'. *)
Lemma tag_open_step : forall p c, p_mode p = MTagOpen -> c <> "!"%char -> settled (pstep p c).
Proof.
  intros p c Hm Hc. unfold pstep. rewrite Hm. destruct (illegal_char c); [exact I|].
  destruct (Ascii.eqb_spec c "!"); [contradiction|].
  destruct (Ascii.eqb c "/"); [apply settled_flush; exact I|]. destruct (Ascii.eqb c "?"); [apply settled_flush; exact I|].
  destruct (is_name_start c); [apply settled_flush; exact I|exact I].
Qed.
Lemma settled_open : forall p c, settled p -> c <> "!"%char -> c <> "<"%char -> settled (prun p (String "<" (String c ""))).
Proof.
  intros p c H Hc Hl. cbn [prun].
  assert (Ho : p_mode (pstep p "<") = MTagOpen \/ settled (pstep p "<")).
  { unfold pstep. change (illegal_char "<") with false. cbv iota.
    destruct (p_mode p) eqn:Hm; unfold settled in H; rewrite Hm in H; try tauto;
      try (right; unfold settled; cbn; rewrite ?Hm; exact I).
    - change (Ascii.eqb "<" "<") with true. cbv iota. unfold end_raw. destruct (unesc (p_raw p)); [left; reflexivity|right; exact I].
    - right. destruct (Ascii.eqb "<" q); [destruct (unesc _); exact I|exact I].
    - right. destruct (String.eqb _ "--"); exact I.
    - right. match goal with |- settled (if ?b then _ else _) => destruct b end; [|exact I].
      destruct (pi_kind _) as [d|]; [destruct (d && _)%bool|]; exact I. }
  destruct Ho as [Ho|Ho]; [apply tag_open_step; assumption|apply settled_step; assumption].
Qed.

(** After "]]>" the parser is in no CDATA section, whatever came before. *)
Lemma settled_brackets : forall p, settled (prun p "]]>").
Proof.
  intros p. assert (Hb : forall q c, p_mode q = MBang c -> settled (pstep q "]")).
  { intros q c Hm. unfold pstep. rewrite Hm. change (illegal_char "]") with false. cbv iota zeta.
    assert (Hn : forall a s, all_chars (fun d => negb (Ascii.eqb d "]")) s = true -> String.prefix (add1 a "]") s = false).
    { intros a. unfold add1. induction a as [|d a IH]; intros s Hs; destruct s as [|e s]; try reflexivity; cbn [String.append String.prefix].
      - destruct (ascii_dec "]" e) as [<-|]; [discriminate|reflexivity].
      - destruct (ascii_dec d e); [|reflexivity]. apply IH. cbn [all_chars] in Hs. apply andb_true_iff in Hs. apply Hs. }
    assert (Hq : forall a s, all_chars (fun d => negb (Ascii.eqb d "]")) s = true -> String.eqb (add1 a "]") s = false).
    { intros a s Hs. destruct (String.eqb_spec (add1 a "]") s) as [He|]; [|reflexivity]. exfalso.
      rewrite <- He in Hs. unfold add1 in Hs. rewrite all_chars_app in Hs. apply andb_true_iff in Hs. destruct Hs as [_ Hs]. discriminate. }
    rewrite !Hq, !Hn by reflexivity. exact I. }
  assert (Ht : forall q, p_mode q = MTagOpen -> settled (pstep q "]")).
  { intros q Hm. apply tag_open_step; [exact Hm|discriminate]. }
  cbn [prun].
  destruct (p_mode p) eqn:Hm;
    try (apply settled_step; [discriminate|]; apply settled_step; [discriminate|];
         first [exact (Hb p _ Hm)|exact (Ht p Hm)|apply settled_step; [discriminate|unfold settled; rewrite Hm; exact I]]).
  (* in a CDATA section *)
  assert (Hs : forall q a c, p_mode q = MCData a -> illegal_char c = false -> c <> ">"%char -> pstep q c = set_mode q (MCData (add1 a c))).
  { intros q a c Hq Hi Hc. unfold pstep. rewrite Hi, Hq. cbv zeta.
    destruct (Nat.leb 3 (String.length (add1 a c))) eqn:Hl; [|reflexivity]. cbn [andb].
    destruct (String.eqb_spec (substring (String.length (add1 a c) - 3) 3 (add1 a c)) "]]>") as [He|]; [|reflexivity].
    exfalso. apply Nat.leb_le in Hl. pose proof (sub_split (add1 a c) (String.length (add1 a c) - 3) ltac:(lia)) as He1.
    replace (String.length (add1 a c) - (String.length (add1 a c) - 3)) with 3 in He1 by lia. rewrite He in He1.
    unfold add1 in He1 at 1.
    change "]]>"%string with ("]]" +++ String ">" "") in He1. rewrite <- sapp_assoc in He1. apply snoc_inj in He1. destruct He1 as [_ He1]. congruence. }
  rewrite (Hs p acc "]"%char Hm) by (reflexivity || discriminate).
  rewrite (Hs (set_mode p (MCData (add1 acc "]"))) (add1 acc "]") "]"%char eq_refl) by (reflexivity || discriminate).
  unfold pstep. change (illegal_char ">") with false. cbn [set_mode p_mode]. cbv zeta.
  replace (add1 (add1 (add1 acc "]") "]") ">") with (acc +++ "]]>") by (unfold add1; rewrite !sapp_assoc; reflexivity).
  rewrite length_app. change (String.length "]]>") with 3.
  replace (Nat.leb 3 (String.length acc + 3)) with true by (symmetry; apply Nat.leb_le; lia).
  replace (String.length acc + 3 - 3) with (String.length acc) by lia.
  pose proof (sub_back acc "]]>") as Hsb. change (String.length "]]>") with 3 in Hsb. rewrite Hsb. cbn [andb]. exact I.
Qed.

(** ** States the parser can be in *)
Definition proper (p : pst) : Prop :=
  match p_mode p with
  | MAttrVal _ _ _ q _ => q = """"%char \/ q = "'"%char
  | MComment t => String.length t <= 2
  | _ => True
  end.
Lemma proper_start : forall p q a e, proper (start_tag p q a e).
Proof.
  intros. unfold start_tag. destruct (bad_tag _ a); [exact I|].
  destruct (resolve_elem _ q); [|exact I]. destruct (resolve_attrs _ a); [|exact I]. destruct e; exact I.
Qed.
Lemma proper_end : forall p q, proper (end_tag p q).
Proof.
  intros. unfold end_tag. destruct (p_stack p); [exact I|]. destruct (p_names p); [exact I|].
  destruct (p_nss p); [exact I|]. destruct (String.eqb s q); exact I.
Qed.
Lemma proper_flush : forall p m, proper (set_mode p m) -> proper (flush p m).
Proof. intros p m H. unfold flush. destruct (p_nonws p); [destruct (p_stack p); [exact I|]|]; exact H. Qed.
Lemma proper_step : forall p c, proper p -> proper (pstep p c).
Proof.
  intros p c H. unfold pstep. destruct (illegal_char c).
  { destruct (p_mode p) eqn:Hm; try exact I. exact H. }
  destruct (p_mode p) eqn:Hm; unfold proper in H; rewrite Hm in H;
    repeat match goal with
           | |- proper (if (Ascii.eqb c """" || _)%bool then _ else _) =>
               destruct (Ascii.eqb_spec c """"); [|destruct (Ascii.eqb_spec c "'")]; cbn [orb]
           | |- proper (if ?b then _ else _) => destruct b
           | |- proper (start_tag _ _ _ _) => apply proper_start
           | |- proper (end_tag _ _) => apply proper_end
           | |- proper (flush _ _) => apply proper_flush
           | |- proper (match unesc ?b with _ => _ end) => destruct (unesc b)
           | |- proper (match pi_kind ?b with _ => _ end) => destruct (pi_kind b)
           | |- proper (match p_stack ?b with _ => _ end) => destruct (p_stack b)
           | |- proper (end_raw _ _) => unfold end_raw
           end; try exact I;
    unfold proper; cbn [p_mode set_mode]; rewrite ?Hm; auto.
  cbv zeta. cbn [p_mode set_mode]. destruct tail as [|a [|b [|d t]]]; cbn in *; lia.
Qed.
Lemma proper_run : forall s p, proper p -> proper (prun p s).
Proof. induction s as [|c s IH]; intros p H; [exact H|]. cbn [prun]. apply IH, proper_step, H. Qed.

(** A comment goes on with a character that is no hyphen. *)
Lemma shifted : forall t c, String.length t <= 2 -> c <> "-"%char ->
  match add1 t c with String _ (String a (String b "")) => String a (String b "") | _ => add1 t c end <> "--"%string.
Proof.
  intros t c Hl Hc He. destruct t as [|a [|b [|d t]]]; cbn in *; try lia; congruence.
Qed.

(** ** White space between a '>' and a tag *)
Definition after_gt (p : pst) : Prop := exists q, proper q /\ p = pstep q ">"%char.
Definition tag_mode (m : pmode) : Prop :=
  match m with
  | MFail _ | MContent | MAttrVal _ _ _ _ _ | MDoctype => True
  | MComment t => t <> "--"%string
  | MPI a => exists u, a = add1 u ">"
  | MBang _ | MCData _ => True
  | _ => False
  end.
Lemma after_gt_mode : forall p, after_gt p -> tag_mode (p_mode p).
Proof.
  intros p (q & Hq & ->). unfold pstep. change (illegal_char ">") with false. cbv iota.
  assert (Hs : forall st n a e, tag_mode (p_mode (start_tag st n a e))).
  { intros. unfold start_tag. destruct (bad_tag _ a); [exact I|].
    destruct (resolve_elem _ n); [|exact I]. destruct (resolve_attrs _ a); [|exact I]. destruct e; exact I. }
  assert (He : forall st n, tag_mode (p_mode (end_tag st n))).
  { intros. unfold end_tag. destruct (p_stack st); [exact I|]. destruct (p_names st); [exact I|].
    destruct (p_nss st); [exact I|]. destruct (String.eqb s n); exact I. }
  destruct (p_mode q) eqn:Hm;
    repeat match goal with
           | |- tag_mode (p_mode (if ?b then _ else _)) => let b' := eval vm_compute in b in
               match b' with true => change b with true | false => change b with false end; cbv iota
           end; try exact I; try apply Hs; try apply He; try (cbn; rewrite Hm; exact I).
  - unfold proper in Hq. rewrite Hm in Hq. destruct Hq as [->| ->]; exact I.
  - cbv zeta. repeat match goal with |- context [if ?b then _ else _] => destruct b; try exact I end;
      first [discriminate|destruct (p_stack q); exact I].
  - unfold proper in Hq. rewrite Hm in Hq. destruct (String.eqb tail "--"); [exact I|]. cbv zeta. cbn [p_mode set_mode tag_mode].
    apply shifted; [exact Hq|discriminate].
  - cbv zeta. match goal with |- tag_mode (p_mode (if ?b then _ else _)) => destruct b end; exact I.
  - cbv zeta. match goal with |- tag_mode (p_mode (if ?b then _ else _)) => destruct b end.
    + destruct (pi_kind _) as [d|]; [destruct (d && _)%bool|]; exact I.
    + exists acc. reflexivity.
Qed.

Lemma ws_chars : forall c, is_ws c = true ->
  illegal_char c = false /\ Ascii.eqb c "<" = false /\ Ascii.eqb c ">" = false /\ Ascii.eqb c """" = false /\
  Ascii.eqb c "'" = false /\ Ascii.eqb c "?" = false.
Proof.
  intros c H. unfold is_ws in H. rewrite !orb_true_iff in H. destruct H as [[[H|H]|H]|H]; apply Ascii.eqb_eq in H; subst c; repeat split.
Qed.
Lemma ws_cons : forall c w, all_chars is_ws (String c w) = true -> is_ws c = true /\ all_chars is_ws w = true.
Proof. intros c w H. apply andb_true_iff. exact H. Qed.

Lemma unesc_aux_ws : forall s e w, all_chars is_ws w = true ->
  unesc_aux e (s +++ w) = match unesc_aux e s with Some t => Some (t +++ w) | None => None end.
Proof.
  assert (Hn : forall w, all_chars is_ws w = true -> unesc_aux None w = Some w).
  { induction w as [|c w IH]; intros H; [reflexivity|]. apply ws_cons in H. destruct H as [Hc H]. cbn [unesc_aux].
    destruct (Ascii.eqb_spec c "&") as [->|]; [discriminate|]. rewrite (IH H). reflexivity. }
  assert (He : forall w e, all_chars is_ws w = true -> unesc_aux (Some e) w = None).
  { induction w as [|c w IH]; intros e H; [reflexivity|]. apply ws_cons in H. destruct H as [Hc H]. cbn [unesc_aux].
    destruct (Ascii.eqb_spec c ";") as [->|]; [discriminate|]. apply IH, H. }
  induction s as [|c s IH]; intros e w H.
  - cbn [String.append]. destruct e as [e|]; [rewrite (He _ _ H); reflexivity|rewrite (Hn _ H); reflexivity].
  - rewrite sapp_cons. cbn [unesc_aux]. destruct e as [e|].
    + destruct (Ascii.eqb c ";"); [|apply IH; exact H]. rewrite (IH None w H). destruct (entity e); [|reflexivity].
      destruct (unesc_aux None s); [|reflexivity]. rewrite sapp_assoc. reflexivity.
    + destruct (Ascii.eqb c "&"); [apply IH; exact H|]. rewrite (IH None w H). destruct (unesc_aux None s); reflexivity.
Qed.

Lemma trim_end_ws : forall w, all_chars is_ws w = true -> trim_end w = "".
Proof.
  induction w as [|c w IH]; intros H; [reflexivity|]. apply ws_cons in H. destruct H as [Hc H]. cbn [trim_end].
  rewrite (IH H), Hc. reflexivity.
Qed.
Lemma trim_end_app : forall s w, all_chars is_ws w = true -> trim_end (s +++ w) = trim_end s.
Proof.
  induction s as [|c s IH]; intros w H; [cbn [String.append]; rewrite trim_end_ws by exact H; reflexivity|].
  rewrite sapp_cons. cbn [trim_end]. rewrite (IH w H). reflexivity.
Qed.
Lemma trim_app_ws : forall s w, all_chars is_ws w = true -> trim (s +++ w) = trim s.
Proof.
  unfold trim. induction s as [|c s IH]; intros w H.
  - cbn [String.append]. assert (Hw : trim_start w = "").
    { clear -H. induction w as [|c w IH]; [reflexivity|]. apply ws_cons in H. destruct H as [Hc H]. cbn [trim_start]. rewrite Hc. exact (IH H). }
    rewrite Hw. reflexivity.
  - rewrite sapp_cons. cbn [trim_start]. destruct (is_ws c); [apply IH; exact H|].
    rewrite <- sapp_cons. apply trim_end_app. exact H.
Qed.
Lemma str_nonws_ws : forall s w, all_chars is_ws w = true -> str_nonws (s +++ w) = str_nonws s.
Proof. intros s w H. unfold str_nonws. rewrite all_chars_app, H, andb_true_r. reflexivity. Qed.

Lemma ws_run_content : forall w p, p_mode p = MContent -> all_chars is_ws w = true ->
  prun p w = Pst MContent (p_out p) (p_stack p) (p_names p) (p_nss p) (p_raw p +++ w) (p_buf p) (p_nonws p) (p_seen p).
Proof.
  induction w as [|c w IH]; intros p Hp H.
  - cbn [prun]. rewrite sapp_nil. destruct p; cbn in *; subst; reflexivity.
  - apply ws_cons in H. destruct H as [Hc H]. cbn [prun]. destruct (ws_chars c Hc) as (H1 & H2 & _).
    unfold pstep. rewrite H1, Hp, H2. rewrite IH by (reflexivity || exact H). cbn [p_out p_stack p_names p_nss p_raw p_buf p_nonws p_seen].
    rewrite add1_app. reflexivity.
Qed.
Lemma ws_run_fail : forall w p m, p_mode p = MFail m -> prun p w = p.
Proof. induction w as [|c w IH]; intros p m H; [reflexivity|]. cbn [prun]. rewrite (fail_step _ _ _ H). eapply IH; eassumption. Qed.
Lemma ws_run_doctype : forall w p, p_mode p = MDoctype -> all_chars is_ws w = true -> prun p w = p.
Proof.
  induction w as [|c w IH]; intros p Hp H; [reflexivity|]. apply ws_cons in H. destruct H as [Hc H]. cbn [prun].
  destruct (ws_chars c Hc) as (H1 & H2 & H3 & _). unfold pstep at 1. rewrite H1, Hp, H3. apply IH; assumption.
Qed.
Lemma ws_run_attr : forall w p nm ats an q acc, p_mode p = MAttrVal nm ats an q acc -> proper p -> all_chars is_ws w = true ->
  exists acc', prun p w = set_mode p (MAttrVal nm ats an q acc').
Proof.
  induction w as [|c w IH]; intros p nm ats an q acc Hp Hq H.
  - exists acc. cbn [prun]. destruct p; cbn in *; subst; reflexivity.
  - apply ws_cons in H. destruct H as [Hc H]. cbn [prun]. destruct (ws_chars c Hc) as (H1 & H2 & H3 & H4 & H5 & _).
    assert (Hcq : Ascii.eqb c q = false). { unfold proper in Hq. rewrite Hp in Hq. destruct Hq as [->| ->]; assumption. }
    unfold pstep at 1. rewrite H1, Hp, Hcq, H2.
    destruct (IH (set_mode p (MAttrVal nm ats an q (add1 acc c))) nm ats an q (add1 acc c) eq_refl) as [acc' Hr]; [|exact H|].
    + unfold proper in *. cbn [set_mode p_mode]. rewrite Hp in Hq. exact Hq.
    + exists acc'. rewrite Hr. reflexivity.
Qed.
Lemma ws_run_comment : forall w p t, p_mode p = MComment t -> all_chars is_ws w = true -> String.length t <= 2 -> t <> "--" ->
  exists t', prun p w = set_mode p (MComment t') /\ String.length t' <= 2 /\ t' <> "--".
Proof.
  induction w as [|c w IH]; intros p t Hp H Hl Hn.
  - exists t. cbn [prun]. split; [destruct p; cbn in *; subst; reflexivity|split; [exact Hl|exact Hn]].
  - apply ws_cons in H. destruct H as [Hc H]. cbn [prun]. destruct (ws_chars c Hc) as (H1 & H2 & H3 & _).
    unfold pstep at 1. rewrite H1, Hp. pose proof (proj2 (String.eqb_neq _ _) Hn) as Hn'. rewrite Hn'. cbv zeta.
    match goal with |- context [MComment ?u] => set (t1 := u) end.
    assert (Ht1 : t1 <> "--") by (apply shifted; [exact Hl|intros ->; discriminate]).
    destruct (IH (set_mode p (MComment t1)) t1 eq_refl H) as (t' & Hr & Hl'); [|exact Ht1|].
    + subst t1. destruct t as [|a [|b [|d t]]]; cbn in *; lia.
    + exists t'. rewrite Hr. split; [reflexivity|exact Hl'].
Qed.
Lemma pi_ends_two : forall s a b, pi_ends (s +++ String a (String b "")) = String.eqb (String a (String b "")) "?>".
Proof.
  intros s a b. unfold pi_ends. rewrite length_app. cbn [String.length].
  replace (Nat.leb 2 (String.length s + 2)) with true by (symmetry; apply Nat.leb_le; lia).
  replace (String.length s + 2 - 2) with (String.length s) by lia.
  pose proof (sub_back s (String a (String b ""))) as H. cbn [String.length] in H. rewrite H. reflexivity.
Qed.
Lemma ws_run_pi : forall w p a u, p_mode p = MPI a -> a = add1 u ">" -> all_chars is_ws w = true ->
  prun p w = set_mode p (MPI (a +++ w)).
Proof.
  assert (Hg : forall w p a, p_mode p = MPI a -> all_chars is_ws w = true -> prun p w = set_mode p (MPI (a +++ w))).
  { induction w as [|c w IH]; intros p a Hp H.
    - cbn [prun]. rewrite sapp_nil. destruct p; cbn in *; subst; reflexivity.
    - apply ws_cons in H. destruct H as [Hc H]. cbn [prun]. destruct (ws_chars c Hc) as (H1 & H2 & H3 & _).
      assert (He : pi_ends (add1 a c) = false).
      { destruct (snoc_or_empty a) as [->|(b & d & ->)]; [reflexivity|]. unfold add1. rewrite sapp_assoc. cbn [String.append].
        rewrite pi_ends_two. destruct (String.eqb_spec (String d (String c "")) "?>") as [Hq|]; [|reflexivity].
        injection Hq as _ ->. discriminate. }
      unfold pstep at 1. rewrite H1, Hp. cbv zeta. fold (pi_ends (add1 a c)). rewrite He.
      rewrite (IH (set_mode p (MPI (add1 a c))) (add1 a c) eq_refl H). rewrite add1_app. reflexivity. }
  intros. apply Hg; assumption.
Qed.
Lemma pi_like_ws : forall u w, all_chars is_ws w = true -> pi_like (add1 u ">" +++ w) (add1 u ">").
Proof.
  intros u w H. split.
  - assert (Hg : forall u t t', pi_kind (u +++ String ">" t) = pi_kind (u +++ String ">" t')).
    { assert (Hc : forall x m l t, pi_kind (String x (String m (String l (String ">" t)))) = None).
      { intros. unfold pi_kind. change (is_ws ">" || Ascii.eqb ">" "?")%bool with false. rewrite !andb_false_r. reflexivity. }
      assert (Hl : forall x m r, pi_kind (String x (String m (String ">" r))) = None).
      { intros x m [|c r]; [reflexivity|]. unfold pi_kind. change (Ascii.eqb ">" "l" || Ascii.eqb ">" "L")%bool with false. rewrite !andb_false_r. reflexivity. }
      assert (Hm : forall x r, pi_kind (String x (String ">" r)) = None).
      { intros x [|l [|c r]]; try reflexivity. unfold pi_kind. change (Ascii.eqb ">" "m" || Ascii.eqb ">" "M")%bool with false. rewrite !andb_false_r. reflexivity. }
      assert (Hx : forall r, pi_kind (String ">" r) = None) by (intros [|m [|l [|c r]]]; reflexivity).
      intros [|x [|m [|l [|c v]]]] t t'; cbn [String.append]; [rewrite !Hx|rewrite !Hm|rewrite !Hl|rewrite !Hc|]; reflexivity. }
    intros t. unfold add1. rewrite !sapp_assoc. cbn [String.append]. apply Hg.
  - intros t Ht. destruct (snoc_or_empty t) as [->|(t1 & c & ->)]; [contradiction|].
    destruct (snoc_or_empty t1) as [->|(t2 & d & ->)].
    + cbn [String.append]. destruct (snoc_or_empty w) as [->|(w1 & e & ->)]; [rewrite sapp_nil; reflexivity|].
      unfold add1. rewrite !sapp_assoc. cbn [String.append].
      replace (u +++ String ">" (w1 +++ String e (String c ""))) with ((u +++ String ">" w1) +++ String e (String c ""))
        by (rewrite !sapp_assoc; reflexivity).
      rewrite !pi_ends_two.
      destruct (String.eqb_spec (String e (String c "")) "?>") as [Hq|].
      * injection Hq as -> ->. rewrite all_chars_app in H. apply andb_true_iff in H. destruct H as [_ H]. discriminate.
      * destruct (String.eqb_spec (String ">" (String c "")) "?>") as [Hq|]; [discriminate|reflexivity].
    + rewrite !sapp_assoc. cbn [String.append]. rewrite <- !sapp_assoc. rewrite !pi_ends_two. reflexivity.
Qed.

Lemma indent_like : forall p w c, settled p -> proper p -> after_gt p -> all_chars is_ws w = true -> c <> "!"%char ->
  like (prun p (w +++ String "<" (String c ""))) (prun p (String "<" (String c ""))).
Proof.
  intros p w c Hs Hpr Hg Hw Hc. apply after_gt_mode in Hg. rewrite prun_app.
  destruct (p_mode p) eqn:Hm; cbn [tag_mode] in Hg; unfold settled in Hs; rewrite Hm in Hs; try tauto.
  - (* character data *)
    rewrite (ws_run_content w p Hm Hw). cbn [prun].
    assert (H1 : forall rw, pstep (Pst MContent (p_out p) (p_stack p) (p_names p) (p_nss p) rw (p_buf p) (p_nonws p) (p_seen p)) "<" =
      end_raw (Pst MContent (p_out p) (p_stack p) (p_names p) (p_nss p) rw (p_buf p) (p_nonws p) (p_seen p)) MTagOpen) by reflexivity.
    rewrite H1. replace (pstep p "<") with (end_raw p MTagOpen) by (unfold pstep; rewrite Hm; reflexivity).
    unfold end_raw. cbn [p_raw p_out p_stack p_names p_nss p_buf p_nonws p_seen].
    unfold unesc. rewrite (unesc_aux_ws _ _ _ Hw). destruct (unesc_aux None (p_raw p)) as [t|].
    2:{ right. rewrite !pfail_step. split; [eexists; split; reflexivity|reflexivity]. }
    rewrite (str_nonws_ws _ _ Hw), <- sapp_assoc.
    set (nw := (p_nonws p || str_nonws t)%bool). set (b := p_buf p +++ t).
    unfold pstep. cbn [p_mode]. destruct (illegal_char c).
    { right. split; [eexists; split; reflexivity|reflexivity]. }
    assert (Hf : forall m, like (flush (Pst MTagOpen (p_out p) (p_stack p) (p_names p) (p_nss p) "" (b +++ w) nw (p_seen p)) m)
                               (flush (Pst MTagOpen (p_out p) (p_stack p) (p_names p) (p_nss p) "" b nw (p_seen p)) m)).
    { intros m. unfold flush. cbn [p_raw p_out p_stack p_names p_nss p_buf p_nonws p_seen]. destruct nw; [|apply like_refl].
      destruct (p_stack p); [right; split; [eexists; split; reflexivity|reflexivity]|]. rewrite (trim_app_ws _ _ Hw). apply like_refl. }
    destruct (Ascii.eqb c "/"); [apply Hf|]. destruct (Ascii.eqb_spec c "!"); [contradiction|].
    destruct (Ascii.eqb c "?"); [apply Hf|]. destruct (is_name_start c); [apply Hf|].
    right. split; [eexists; split; reflexivity|reflexivity].
  - (* an attribute value *)
    destruct (ws_run_attr w p _ _ _ _ _ Hm Hpr Hw) as [acc' ->]. cbn [prun]. unfold proper in Hpr. rewrite Hm in Hpr.
    assert (Hq : Ascii.eqb "<" q = false) by (destruct Hpr as [->| ->]; reflexivity).
    assert (H1 : forall st acc, p_mode st = MAttrVal nm ats an q acc -> pstep st "<" = pfail st "Unexpected token inside attribute value: <").
    { intros st a Ha. unfold pstep. change (illegal_char "<") with false. rewrite Ha, Hq. reflexivity. }
    rewrite (H1 (set_mode p (MAttrVal nm ats an q acc')) acc' eq_refl), (H1 p _ Hm). rewrite !pfail_step. right. split; [eexists; split; reflexivity|reflexivity].
  - (* a comment *)
    unfold proper in Hpr. rewrite Hm in Hpr. destruct (ws_run_comment w p _ Hm Hw Hpr Hg) as (t' & -> & Hl & Hn').
    assert (H1 : forall st t, p_mode st = MComment t -> String.length t <= 2 -> t <> "--" ->
      prun st (String "<" (String c "")) = if illegal_char c then pfail (set_mode st (p_mode (pstep st "<"))) "Unexpected character"
                                           else set_mode st (MComment (String "<" (String c "")))).
    { intros st t Ht Hlt Hnt. cbn [prun]. pose proof (proj2 (String.eqb_neq _ _) Hnt) as Hnt'.
      unfold pstep at 2. unfold pstep at 2. change (illegal_char "<") with false. rewrite Ht. cbv iota.
      rewrite Hnt'. cbv zeta iota.
      unfold pstep. cbn [p_mode set_mode]. destruct (illegal_char c); [reflexivity|].
      pose proof (proj2 (String.eqb_neq _ _) (shifted t "<" Hlt ltac:(discriminate))) as Hs'. rewrite Hs'.
      destruct t as [|a [|b [|d t]]]; cbn [String.length] in Hlt; try lia; reflexivity. }
    rewrite (H1 (set_mode p (MComment t')) t' eq_refl Hl Hn'), (H1 p _ Hm Hpr Hg). destruct (illegal_char c).
    + right. split; [eexists; split; reflexivity|reflexivity].
    + left. split; [apply ml_same|repeat split].
  - (* a processing instruction *)
    destruct Hg as [u Hu]. rewrite (ws_run_pi w p _ u Hm Hu Hw). apply like_run. left.
    split; [|repeat split]. cbn [set_mode p_mode]. rewrite Hm. apply ml_pi. rewrite Hu. apply pi_like_ws. exact Hw.
  - rewrite (ws_run_doctype w p Hm Hw). apply like_refl.
  - rewrite (ws_run_fail w p _ Hm). apply like_refl.
Qed.

(** ** The emitter *)
Definition quiet_event (e : wevent) : Prop :=
  match e with
  | WStart n a m => quiet (name_repr n) /\ (forall t, In t a -> no_open (name_repr (at_name t))) /\ (forall pu, In pu m -> no_open (fst pu))
  | _ => True
  end.

Lemma no_open_app : forall a b, no_open a -> no_open b -> no_open (a +++ b).
Proof. unfold no_open. intros a b Ha Hb. rewrite all_chars_app, Ha, Hb. reflexivity. Qed.
Lemma no_open_pcdata : forall s, no_open (esc_pcdata s).
Proof.
  induction s as [|c s IH]; [reflexivity|]. cbn [esc_pcdata]. apply no_open_app; [|exact IH]. unfold esc_pcdata_char.
  destruct (Ascii.eqb_spec c "<"); [reflexivity|]. destruct (Ascii.eqb c ">"); [reflexivity|].
  destruct (Ascii.eqb c "&"); [reflexivity|]. unfold no_open. cbn [all_chars].
  destruct (Ascii.eqb_spec c "<"); [contradiction|reflexivity].
Qed.
Lemma no_open_attr : forall s, no_open (esc_attr s).
Proof.
  induction s as [|c s IH]; [reflexivity|]. cbn [esc_attr]. apply no_open_app; [|exact IH]. unfold esc_attr_char.
  destruct (Ascii.eqb_spec c "<"); [reflexivity|].
  repeat match goal with |- no_open (if ?b then _ else _) => destruct b; [reflexivity|] end.
  unfold no_open. cbn [all_chars]. destruct (Ascii.eqb_spec c "<"); [contradiction|reflexivity].
Qed.
Lemma no_open_show : forall p, no_open (fst p) -> no_open (show_attr p).
Proof.
  intros p H. unfold show_attr. apply no_open_app; [reflexivity|]. apply no_open_app; [exact H|].
  apply no_open_app; [reflexivity|]. apply no_open_app; [apply no_open_attr|reflexivity].
Qed.
Lemma no_open_concat : forall l, (forall s, In s l -> no_open s) -> no_open (String.concat "" l).
Proof.
  induction l as [|s l IH]; intros H; [reflexivity|]. rewrite concat_cons. apply no_open_app; [apply H; left; reflexivity|].
  apply IH. intros; apply H; right; assumption.
Qed.
Lemma no_open_attrs : forall l, (forall t, In t l -> no_open (name_repr (at_name t))) -> no_open (show_attrs l).
Proof.
  intros l H. apply no_open_concat. intros s Hs. apply in_map_iff in Hs. destruct Hs as (t & <- & Ht). apply no_open_show, H, Ht.
Qed.
Lemma no_open_ns : forall m, (forall pu, In pu m -> no_open (fst pu)) -> no_open (show_ns m).
Proof.
  intros m H. apply no_open_concat. intros s Hs. apply in_map_iff in Hs. destruct Hs as (t & <- & Ht). unfold show_ns1.
  repeat match goal with |- no_open (if ?b then _ else _) => destruct b; try reflexivity end; apply no_open_show; [reflexivity|].
  cbn [fst]. apply no_open_app; [reflexivity|apply H, Ht].
Qed.
Lemma declare_in : forall st ns pu, In pu (declare st ns) -> In pu ns.
Proof.
  intros st ns. unfold declare.
  assert (H : forall l acc pu, In pu (fold_left (fun cur pu => if nss_has (cur :: st) (fst pu) (snd pu) then cur
                   else ns_put cur (fst pu) (snd pu)) l acc) -> In pu l \/ In pu acc).
  { induction l as [|[a b] l IH]; intros acc pu Hp; [right; exact Hp|]. cbn [fold_left] in Hp. apply IH in Hp.
    destruct Hp as [Hp|Hp]; [left; right; exact Hp|]. cbn [fst snd] in Hp. destruct (nss_has (acc :: st) a b); [right; exact Hp|].
    destruct pu as [q v]. apply ns_put_in in Hp. destruct Hp as [Hp|Hp]; [left; left; symmetry; exact Hp|right; exact Hp]. }
  intros pu Hp. apply H in Hp. destruct Hp as [Hp|[]]. exact Hp.
Qed.
Lemma repeat_ws : forall n s, all_chars is_ws s = true -> all_chars is_ws (repeat_str n s) = true.
Proof. induction n as [|n IH]; intros s H; [reflexivity|]. cbn [repeat_str]. rewrite all_chars_app, H, IH by exact H. reflexivity. Qed.
Lemma indent_ws : forall k s, all_chars is_ws s = true -> all_chars is_ws (nl +++ repeat_str k s) = true.
Proof. intros k s H. rewrite all_chars_app, repeat_ws by exact H. reflexivity. Qed.

Lemma settled_gt : forall p, settled p -> settled (pstep p ">").
Proof. intros p H. apply settled_step; [discriminate|exact H]. Qed.

(** A tag, with or without white space before it. *)
Lemma tag_like : forall p q w c rest, like p q -> settled p -> proper p -> all_chars is_ws w = true -> (w = "" \/ after_gt p) ->
  c <> "!"%char -> c <> "<"%char -> no_open rest ->
  like (prun p (w +++ String "<" (String c rest))) (prun q (String "<" (String c rest))) /\
  settled (prun p (w +++ String "<" (String c rest))) /\ proper (prun p (w +++ String "<" (String c rest))).
Proof.
  intros p q w c rest Hl Hs Hp Hw Hg Hc Hc' Hr.
  assert (Ht : String "<" (String c rest) = String "<" (String c "") +++ rest) by reflexivity.
  rewrite Ht, <- sapp_assoc, !prun_app. split; [|split].
  - apply like_run. apply like_trans with (prun p (String "<" (String c ""))); [|apply like_run; exact Hl].
    rewrite <- prun_app. destruct Hg as [->|Hg]; [apply like_refl|apply indent_like; assumption].
  - apply settled_run; [exact Hr|]. apply settled_open; [|exact Hc|exact Hc'].
    apply settled_run; [|exact Hs]. clear -Hw. unfold no_open. induction w as [|c w IH]; [reflexivity|].
    apply ws_cons in Hw. destruct Hw as [Hc Hw]. cbn [all_chars]. rewrite (IH Hw). destruct (ws_chars c Hc) as (_ & H & _). rewrite H. reflexivity.
  - repeat apply proper_run. exact Hp.
Qed.

Definition open_flags (em : emst) : Prop := List.length (em_flags em) = S (List.length (em_names em)).
Definition ready (em : emst) (p : pst) : Prop :=
  settled p /\ proper p /\ open_flags em /\ (forall n, In n (em_names em) -> no_open (name_repr n)) /\
  (em_just em = false -> snd (top_flags (em_flags em)) = false -> (0 < List.length (em_names em) \/ fst (top_flags (em_flags em)) = true) -> after_gt p).
Definition same_em (a b : emst) : Prop := em_just a = em_just b /\ em_names a = em_names b /\ em_nss a = em_nss b.
Definition white_conf (c : econf) : Prop := forall s, ec_indent c = Some s -> all_chars is_ws s = true.

Lemma fix_ready : forall em p, ready em p -> em_just em = true ->
  settled (pstep p ">") /\ proper (pstep p ">") /\ after_gt (pstep p ">").
Proof.
  intros em p (Hs & Hp & _) Hj. split; [apply settled_gt; exact Hs|]. split; [apply proper_step; exact Hp|].
  exists p. split; [exact Hp|reflexivity].
Qed.

Lemma start_indent : forall c em, white_conf c -> 
  all_chars is_ws (indent_before_start c em) = true /\
  (indent_before_start c em = "" \/
   (snd (top_flags (em_flags em)) = false /\ (0 < List.length (em_names em) \/ fst (top_flags (em_flags em)) = true))).
Proof.
  intros c em Hc. unfold indent_before_start. destruct (ec_indent c) as [s|] eqn:Hi; [|split; [reflexivity|left; reflexivity]].
  destruct (top_flags (em_flags em)) as [mk tx]. cbn [fst snd].
  destruct (negb tx && (Nat.ltb 0 (List.length (em_names em)) || mk))%bool eqn:Hb; [|split; [reflexivity|left; reflexivity]].
  split; [apply indent_ws, Hc, Hi|right]. apply andb_true_iff in Hb. destruct Hb as [Hb Hb'].
  split; [destruct tx; [discriminate|reflexivity]|]. apply orb_true_iff in Hb'. destruct Hb' as [Hb'|Hb']; [left; apply Nat.ltb_lt; exact Hb'|right; exact Hb'].
Qed.
Lemma end_indent : forall c em, white_conf c ->
  all_chars is_ws (indent_before_end c em) = true /\
  (indent_before_end c em = "" \/ (snd (top_flags (em_flags em)) = false /\ fst (top_flags (em_flags em)) = true)).
Proof.
  intros c em Hc. unfold indent_before_end. destruct (ec_indent c) as [s|] eqn:Hi; [|split; [reflexivity|left; reflexivity]].
  destruct (top_flags (em_flags em)) as [mk tx]. cbn [fst snd].
  destruct (mk && negb tx)%bool eqn:Hb; [|split; [reflexivity|left; reflexivity]].
  split; [apply indent_ws, Hc, Hi|right]. apply andb_true_iff in Hb. destruct Hb as [Hb Hb'].
  split; [destruct tx; [discriminate|reflexivity]|exact Hb].
Qed.

Lemma emit1_like : forall c d e em em' p q, white_conf c -> quiet_event e -> same_em em em' -> ready em p -> like p q ->
  let r := emit1 c em e in let r' := emit1 (EConf d None) em' e in
  like (prun p (fst r)) (prun q (fst r')) /\ same_em (snd r) (snd r') /\ ready (snd r) (prun p (fst r)).
Proof.
  intros c d e em em' p q Hc He (Hj & Hn & Hns) Hr Hl. cbv zeta.
  pose proof (fix_ready em p Hr) as Hfx. pose proof Hr as (Hs & Hp & Hf & Hno & Hg).
  destruct em as [just names nss flags], em' as [just' names' nss' flags']. cbn [em_just em_names em_nss em_flags] in *. subst just' names' nss'.
  set (fx := if just then ">" else "").
  assert (H0 : settled (prun p fx) /\ proper (prun p fx) /\ like (prun p fx) (prun q fx)).
  { split; [|split; [apply proper_run; exact Hp|apply like_run; exact Hl]]. subst fx. destruct just; [apply Hfx; reflexivity|exact Hs]. }
  destruct H0 as (Hs0 & Hp0 & Hl0).
  assert (Hg0 : snd (top_flags flags) = false -> (0 < List.length names \/ fst (top_flags flags) = true) -> after_gt (prun p fx)).
  { intros H1 H2. subst fx. destruct just; [apply Hfx; reflexivity|exact (Hg eq_refl H1 H2)]. }
  unfold open_flags in Hf. cbn [em_flags em_names] in Hf.
  destruct e as [n a m|o|s|s]; cbn [emit1 fst snd em_just em_names em_nss em_flags] in *.
  - (* a start tag *)
    fold fx. destruct He as ((Hq1 & Hq2) & Ha & Hm). set (em0 := Emst just names nss flags).
    change (indent_before_start (EConf d None) (Emst just names nss flags')) with "". cbn [String.append].
    destruct (start_indent c em0 Hc) as [Hw Hw']. set (w := indent_before_start c em0) in *.
    destruct (name_repr n) as [|ch rest] eqn:Hnr; [destruct Hq2|].
    set (rest' := rest +++ show_ns (declare nss m) +++ show_attrs a).
    assert (Hrest : no_open rest' /\ ch <> "<"%char /\ no_open rest).
    { unfold no_open in Hq1. cbn [all_chars] in Hq1. apply andb_true_iff in Hq1. destruct Hq1 as [Hch Hrest].
      split; [|split; [intros ->; discriminate|exact Hrest]]. apply no_open_app; [exact Hrest|]. apply no_open_app.
      - apply no_open_ns. intros pu Hpu. apply Hm, (declare_in _ _ _ Hpu).
      - apply no_open_attrs. exact Ha. }
    destruct Hrest as (Hrest & Hch & Hrest0).
    change (fx +++ w +++ String "<" (String ch rest +++ show_ns (declare nss m) +++ show_attrs a)) with (fx +++ w +++ String "<" (String ch rest')).
    change (fx +++ String "<" (String ch rest +++ show_ns (declare nss m) +++ show_attrs a)) with (fx +++ String "<" (String ch rest')).
    rewrite !(prun_app fx). destruct (tag_like (prun p fx) (prun q fx) w ch rest' Hl0 Hs0 Hp0 Hw) as (H1 & H2 & H3); try assumption.
    { destruct Hw' as [Hw'|[Hw1 Hw2]]; [left; exact Hw'|right; apply Hg0; assumption]. }
    split; [exact H1|]. split; [repeat split|]. split; [exact H2|]. split; [exact H3|].
    split; [unfold open_flags; cbn [em_flags em_names List.length]; f_equal; destruct flags as [|[]]; exact Hf|].
    split; [|cbn [em_just]; discriminate]. cbn [em_names]. intros k [<-|Hk]; [|apply Hno; exact Hk]. rewrite Hnr. exact Hq1.
  - (* an end tag *)
    destruct names as [|top names].
    { cbn [fst snd prun]. split; [exact Hl|]. split; [repeat split|]. exact Hr. }
    cbn [fst snd]. destruct just.
    + assert (Hgt : after_gt (prun p " />")).
      { change (prun p " />") with (pstep (prun p " /") ">"). exists (prun p " /"). split; [apply proper_run; exact Hp|reflexivity]. }
      split; [apply like_run; exact Hl|]. split; [repeat split|]. split; [apply settled_run; [reflexivity|exact Hs]|].
      split; [apply proper_run; exact Hp|].
      split; [unfold open_flags; cbn [em_flags em_names]; cbn [List.length] in Hf; destruct flags as [|f [|[] flags]]; cbn in *; lia|].
      split; [intros k Hk; apply Hno; right; exact Hk|intros; exact Hgt].
    + set (em0 := Emst false (top :: names) nss flags).
      change (indent_before_end (EConf d None) (Emst false (top :: names) nss flags')) with "". cbn [String.append].
      destruct (end_indent c em0 Hc) as [Hw Hw']. set (w := indent_before_end c em0) in *.
      assert (Hrest : no_open (name_repr top +++ ">")).
      { apply no_open_app; [apply Hno; left; reflexivity|reflexivity]. }
      change (w +++ String "<" (String "/" (name_repr top +++ ">"))) with (w +++ String "<" (String "/" (name_repr top +++ ">"))).
      destruct (tag_like p q w "/" (name_repr top +++ ">") Hl Hs Hp Hw) as (H1 & H2 & H3); try assumption; try discriminate.
      { destruct Hw' as [Hw'|[Hw1 Hw2]]; [left; exact Hw'|right; apply Hg; [reflexivity|exact Hw1|right; exact Hw2]]. }
      split; [exact H1|]. split; [repeat split|]. split; [exact H2|]. split; [exact H3|].
      split; [unfold open_flags; cbn [em_flags em_names]; cbn [List.length] in Hf; destruct flags as [|f [|[] flags]]; cbn in *; lia|].
      split; [intros k Hk; apply Hno; right; exact Hk|]. intros _ _ _.
      replace (w +++ String "<" (String "/" (name_repr top +++ ">"))) with ((w +++ String "<" (String "/" (name_repr top))) +++ ">")
        by (rewrite sapp_assoc; reflexivity).
      rewrite prun_app. exists (prun p (w +++ String "<" (String "/" (name_repr top)))). split; [apply proper_run; exact Hp|reflexivity].
  - fold fx. rewrite !prun_app. split; [apply like_run; exact Hl0|]. split; [repeat split|].
    split; [apply settled_run; [apply no_open_pcdata|exact Hs0]|]. split; [apply proper_run; exact Hp0|].
    split; [unfold open_flags; cbn [em_flags em_names]; destruct flags as [|[]]; exact Hf|]. split; [exact Hno|].
    cbn [em_flags]. destruct flags as [|[mk tx] flags]; [discriminate|]. cbn. discriminate.
  - fold fx. rewrite !(prun_app fx). split; [apply like_run; exact Hl0|]. split; [repeat split|].
    split; [|split; [apply proper_run; exact Hp0|]].
    + replace ("<![CDATA[" +++ s +++ "]]>") with (("<![CDATA[" +++ s) +++ "]]>") by (rewrite sapp_assoc; reflexivity).
      rewrite prun_app. apply settled_brackets.
    + split; [unfold open_flags; cbn [em_flags em_names]; destruct flags as [|[]]; exact Hf|]. split; [exact Hno|].
      cbn [em_flags]. destruct flags as [|[mk tx] flags]; [discriminate|]. cbn. discriminate.
Qed.

Lemma emit_like : forall c d, white_conf c -> forall l em em' p q, (forall e, In e l -> quiet_event e) -> same_em em em' -> ready em p -> like p q ->
  like (prun p (emit_from c em l)) (prun q (emit_from (EConf d None) em' l)).
Proof.
  intros c d Hc. induction l as [|e l IH]; intros em em' p q Hq He Hr Hl; [exact Hl|]. cbn [emit_from].
  destruct (emit1_like c d e em em' p q Hc (Hq e (or_introl eq_refl)) He Hr Hl) as (H1 & H2 & H3).
  destruct (emit1 c em e) as [t em1], (emit1 (EConf d None) em' e) as [t' em1']. cbn [fst snd] in *. rewrite !prun_app.
  apply IH; try assumption. intros; apply Hq; right; assumption.
Qed.

Lemma decl_run : prun p0 xml_decl = p0.
Proof. vm_compute. reflexivity. Qed.
Lemma ready0 : forall c, ready (em0 (ec_decl c)) (prun p0 (if ec_decl c then xml_decl else "")).
Proof.
  intros c. assert (Hp : prun p0 (if ec_decl c then xml_decl else "") = p0) by (destruct (ec_decl c); [apply decl_run|reflexivity]).
  split; [rewrite Hp; exact I|]. split; [rewrite Hp; exact I|]. split; [reflexivity|]. split; [intros n []|].
  cbn [em0 em_flags em_names top_flags fst snd List.length]. intros _ _ [H|H]; [lia|]. rewrite H.
  exists (prun p0 (substring 0 37 xml_decl)). split; [vm_compute; exact I|vm_compute; reflexivity].
Qed.

Lemma emit_text_like : forall c l, white_conf c -> (forall e, In e l -> quiet_event e) ->
  like (prun p0 (emit_text c l)) (prun p0 (emit_from (EConf false None) (em0 false) l)).
Proof.
  intros c l Hc Hl. destruct l as [|e l]; [apply like_refl|]. unfold emit_text. rewrite prun_app.
  apply emit_like; try assumption; [repeat split|apply ready0|].
  replace (prun p0 (if ec_decl c then xml_decl else "")) with p0 by (destruct (ec_decl c); [symmetry; apply decl_run|reflexivity]). apply like_refl.
Qed.

(** Whatever the indentation, the parser delivers the same events, but for
    the processing instructions. *)
Theorem emit_indent : forall c c' l, white_conf c -> white_conf c' -> (forall e, In e l -> quiet_event e) ->
  let s := parse_text (emit_text c l) in let s' := parse_text (emit_text c' l) in
  strip (s_evs s) = strip (s_evs s') /\ s_fin s = s_fin s'.
Proof.
  intros c c' l Hc Hc' Hl. cbv zeta. unfold parse_text. apply like_finish.
  eapply like_trans; [apply emit_text_like; eassumption|apply like_sym, emit_text_like; eassumption].
Qed.

(** ** The names written by generated code *)
Lemma repr_split : forall q p l, split_colon q = Some (p, l) -> p +++ ":" +++ l = q.
Proof.
  induction q as [|c q IH]; intros p l H; [discriminate|]. cbn [split_colon] in H. destruct (Ascii.eqb_spec c ":") as [->|].
  - injection H as <- <-. reflexivity.
  - destruct (split_colon q) as [[p' l']|]; [|discriminate]. injection H as <- <-. rewrite sapp_cons, (IH _ _ eq_refl). reflexivity.
Qed.
Lemma repr_qname : forall q, name_repr (qname q) = q.
Proof.
  intros q. unfold qname. destruct (split_colon q) as [[p l]|] eqn:H; [|reflexivity]. unfold name_repr. cbn [n_prefix n_local]. apply repr_split, H.
Qed.
Lemma quiet_app : forall a b, quiet a -> no_open b -> quiet (a +++ b).
Proof.
  intros a b [H1 H2] Hb. split; [apply no_open_app; assumption|]. destruct a as [|c a]; [destruct H2|exact H2].
Qed.
Lemma quiet_prefixed : forall dns pfx l, quiet_opt pfx -> quiet l -> quiet (prefix_part dns pfx +++ l).
Proof.
  intros dns pfx l Hp Hl. unfold prefix_part.
  repeat match goal with
         | |- context [match ?o with Some _ => _ | None => _ end] => is_var o; destruct o
         | |- context [if ?b then _ else _] => destruct b
         end; try exact Hl;
    rewrite ?sapp_assoc; apply quiet_app; try (apply Hp; reflexivity); apply no_open_app; [reflexivity|apply Hl].
Qed.
Lemma quiet_label : forall l a, quiet_item l a -> quiet (opt_default l (ya_rename a)).
Proof. intros l a (H1 & H2 & _). destruct (ya_rename a); [apply H2; reflexivity|exact H1]. Qed.

Definition quiet_forest (ts : list wnode) : Prop := forall e, In e (flat_map wtree ts) -> quiet_event e.
Definition quiet_tag (a : list attr) (m : nsmap) : Prop :=
  (forall t, In t a -> no_open (name_repr (at_name t))) /\ (forall pu, In pu m -> no_open (fst pu)).
Definition quiet_how (h : how) : Prop := match h with Under (Some q) => quiet q | _ => True end.

Lemma quiet_forest_app : forall a b, quiet_forest a -> quiet_forest b -> quiet_forest (a ++ b).
Proof. intros a b Ha Hb e He. rewrite flat_map_app in He. apply in_app_or in He. destruct He; auto. Qed.
Lemma quiet_oapp : forall a b ts, oapp a b = Some ts -> (forall u, a = Some u -> quiet_forest u) -> (forall u, b = Some u -> quiet_forest u) ->
  quiet_forest ts.
Proof. intros a b ts H Ha Hb. apply oapp_some in H. destruct H as (u & w & -> & -> & ->). apply quiet_forest_app; auto. Qed.
Lemma quiet_oconcat : forall A (f : A -> option (list wnode)) l ts, oconcat f l = Some ts ->
  (forall a u, f a = Some u -> quiet_forest u) -> quiet_forest ts.
Proof.
  induction l as [|a l IH]; intros ts H Hf; cbn [oconcat] in H; [injection H as <-; intros e []|].
  eapply quiet_oapp; [exact H|apply Hf|]. intros u Hu. eapply IH; eassumption.
Qed.
Lemma quiet_elem : forall q a m ks, quiet q -> quiet_tag a m -> quiet_forest ks -> quiet_forest [WElem (qname q) a m ks].
Proof.
  intros q a m ks Hq [Ha Hm] Hk e He. cbn [flat_map wtree] in He. rewrite app_nil_r in He. destruct He as [<-|He].
  - cbn [quiet_event]. rewrite repr_qname. auto.
  - apply in_app_or in He. destruct He as [He|[<-|[]]]; [apply Hk; exact He|exact I].
Qed.
Lemma quiet_text : forall t, quiet_forest [WTxt t].
Proof. intros t e [<-|[]]. exact I. Qed.
Lemma quiet_nil : quiet_forest [].
Proof. intros e []. Qed.
Lemma quiet_tag_nil : quiet_tag [] [].
Proof. split; intros ? []. Qed.
Lemma quiet_cdata : forall t, quiet_forest [WCd t].
Proof. intros t e [<-|[]]. exact I. Qed.

Section Quiet.
  Variable x : ext.
  Variable E : env.
  Variable enc : nat -> value -> how -> option (list wnode).
  Variable ea : nat -> value -> option (list attr * nsmap).
  Hypothesis HE : quiet_names E.
  Hypothesis He : forall id v h ts, quiet_how h -> enc id v h = Some ts -> quiet_forest ts.
  Hypothesis Ha : forall id v a m, ea id v = Some (a, m) -> quiet_tag a m.

  Lemma quiet_simple : forall q s v ts, quiet q -> enc_simple x q s v = Some ts -> quiet_forest ts.
  Proof.
    intros q s v ts Hq H. apply omap_some in H. destruct H as (t & _ & ->). apply quiet_elem; [exact Hq|apply quiet_tag_nil|apply quiet_text].
  Qed.
  Lemma quiet_field : forall ra self f v ts, quiet_item (f_label f) (f_attrs f) ->
    enc_field x enc ra self f v = Some ts -> quiet_forest ts.
  Proof.
    intros ra self f v ts Hf H. assert (Hq : quiet (field_qname ra f)).
    { apply quiet_prefixed; [apply Hf|apply quiet_label; exact Hf]. }
    unfold enc_field in H. cbv zeta in H. destruct (ya_attribute (f_attrs f)); [injection H as <-; apply quiet_nil|].
    destruct (ya_text (f_attrs f)).
    { destruct (f_ty f) as [[[]|]|[[]|]|[[]|]|[[]|]]; try discriminate.
      - destruct v; try discriminate. injection H as <-. apply quiet_text.
      - destruct v as [| | | | |[[]|]| | |]; try discriminate; injection H as <-; apply quiet_text. }
    destruct (left_out x self v f true); [injection H as <-; apply quiet_nil|].
    destruct (ya_cdata (f_attrs f)).
    { destruct (f_ty f) as [[[]|]|[[]|]|[[]|]|[[]|]]; try discriminate. destruct v; try discriminate. injection H as <-.
      apply quiet_elem; [exact Hq|apply quiet_tag_nil|apply quiet_cdata]. }
    assert (Hh : quiet_how (if ya_flatten (f_attrs f) then Inside else Under (Some (field_qname ra f)))).
    { destruct (ya_flatten (f_attrs f)); [exact I|exact Hq]. }
    destruct (f_ty f) as [[s|id]|[s|id]|[s|id]|[s|id]].
    - eapply quiet_simple; eassumption.
    - eapply He; eassumption.
    - destruct v as [| | | | |[w|]| | |]; try discriminate; [eapply quiet_simple; eassumption|injection H as <-; apply quiet_nil].
    - destruct v as [| | | | |[w|]| | |]; try discriminate; [eapply He; eassumption|injection H as <-; apply quiet_nil].
    - destruct v; try discriminate. eapply quiet_oconcat; [exact H|]. intros a u Hu. eapply quiet_simple; eassumption.
    - destruct v; try discriminate. eapply quiet_oconcat; [exact H|]. intros a u Hu. exact (He _ _ _ _ Hh Hu).
    - destruct v as [| | | | |[[]|]| | |]; try discriminate; [|injection H as <-; apply quiet_nil].
      eapply quiet_oconcat; [exact H|]. intros a u Hu. eapply quiet_simple; eassumption.
    - destruct v as [| | | | |[[]|]| | |]; discriminate.
  Qed.
  Lemma quiet_fields : forall ra self fs vs ts, (forall f, In f fs -> quiet_item (f_label f) (f_attrs f)) ->
    enc_fields x enc ra self fs vs = Some ts -> quiet_forest ts.
  Proof.
    intros ra self. induction fs as [|f fs IH]; intros [|v vs] ts Hf H; try discriminate; cbn [enc_fields] in H.
    - injection H as <-. apply quiet_nil.
    - eapply quiet_oapp; [exact H| |].
      + intros u Hu. eapply quiet_field; [apply Hf; left; reflexivity|exact Hu].
      + intros u Hu. eapply IH; [intros; apply Hf; right; assumption|exact Hu].
  Qed.
  Lemma quiet_item_out : forall b v h ts, quiet_how h -> enc_item x enc b v h = Some ts -> quiet_forest ts.
  Proof.
    intros [s|id] v h ts Hh H; [|eapply He; eassumption]. destruct s; try discriminate; apply omap_some in H; destruct H as (u & _ & ->); apply quiet_text.
  Qed.
  Lemma quiet_named_fields : forall ra fs vs ts, (forall f, In f fs -> quiet_item (f_label f) (f_attrs f)) ->
    enc_named_fields x enc ra fs vs = Some ts -> quiet_forest ts.
  Proof.
    intros ra. induction fs as [|f fs IH]; intros [|v vs] ts Hf H; try discriminate; cbn [enc_named_fields] in H.
    - injection H as <-. apply quiet_nil.
    - eapply quiet_oapp; [exact H| |].
      + intros u Hu. assert (Hq : quiet (field_qname ra f)).
        { pose proof (Hf f (or_introl eq_refl)) as Hi. apply quiet_prefixed; [apply Hi|apply quiet_label; exact Hi]. }
        unfold enc_named_field in Hu. destruct (f_ty f) as [[s|id]|b|b|b].
        * eapply quiet_simple; eassumption.
        * eapply He; [|exact Hu]. exact Hq.
        * destruct v; try discriminate. injection Hu as <-. apply quiet_nil.
        * destruct v; try discriminate. eapply quiet_oconcat; [exact Hu|]. intros a w Hw. eapply quiet_item_out; [|exact Hw]. exact Hq.
        * destruct v; try discriminate. injection Hu as <-. apply quiet_nil.
      + intros u Hu. eapply IH; [intros; apply Hf; right; assumption|exact Hu].
  Qed.
  Lemma quiet_payload_item : forall q b v ts, quiet q -> enc_payload_item x enc q b v = Some ts -> quiet_forest ts.
  Proof.
    intros q b v ts Hq H. apply omap_some in H. destruct H as (ks & Hk & ->). apply quiet_elem; [exact Hq|apply quiet_tag_nil|].
    destruct b as [[]|id]; try (eapply quiet_item_out; [|exact Hk]; exact I).
    destruct v; try discriminate. injection Hk as <-. apply quiet_text.
  Qed.
  Lemma quiet_payload : forall h q fl t v ts, quiet_how h -> quiet q -> enc_payload x enc h q fl t v = Some ts -> quiet_forest ts.
  Proof.
    intros h q fl t v ts Hh Hq H. unfold enc_payload in H. destruct t as [[s|id]|b|b|b].
    - eapply quiet_simple; eassumption.
    - destruct fl; [eapply He; eassumption|eapply quiet_payload_item; eassumption].
    - destruct v as [| | | | |[w|]| | |]; try discriminate; [eapply quiet_payload_item; eassumption|injection H as <-; apply quiet_nil].
    - destruct v; try discriminate. eapply quiet_oconcat; [exact H|]. intros; eapply quiet_payload_item; eassumption.
    - discriminate.
  Qed.
  Lemma quiet_content : forall h id td v ts, quiet_how h -> nth_error E id = Some td -> enc_content x enc h td v = Some ts -> quiet_forest ts.
  Proof.
    intros h id td v ts Hh Htd H. destruct (HE id td Htd) as (_ & _ & _ & Hb). unfold enc_content in H.
    destruct (t_body td) as [fs|vars d|k]; [| |discriminate].
    - destruct v; try discriminate. eapply quiet_fields; eassumption.
    - destruct v as [| | | | | | | |i l]; try discriminate. destruct (nth_error vars i) as [vr|] eqn:Hi; [|discriminate].
      apply nth_error_In in Hi. destruct (Hb vr Hi) as [Hv Hn]. assert (Hq : quiet (variant_qname (t_attrs td) vr)).
      { apply quiet_prefixed; [apply Hv|apply quiet_label; exact Hv]. }
      unfold enc_variant in H. cbv zeta in H. destruct (v_body vr) as [|fl t|fs].
      + destruct l; [|discriminate]. injection H as <-. destruct (ya_tag (t_attrs td)); [apply quiet_nil|apply quiet_text].
      + destruct l as [|w [|]]; try discriminate. eapply quiet_payload; eassumption.
      + eapply quiet_named_fields; eassumption.
  Qed.

  Lemma quiet_tag_app : forall a b m, quiet_tag a m -> quiet_tag b m -> quiet_tag (a ++ b) m.
  Proof. intros a b m [H1 H2] [H3 _]. split; [|exact H2]. intros t Ht. apply in_app_or in Ht. destruct Ht; auto. Qed.
  Lemma extend_in : forall m m2 pu, In pu (ns_extend m m2) -> In pu m \/ In pu m2.
  Proof.
    intros m m2. revert m. induction m2 as [|[a b] m2 IH]; intros m pu H; [left; exact H|]. unfold ns_extend in H. cbn [fold_left] in H.
    apply IH in H. destruct H as [H|H]; [|right; right; exact H]. destruct pu as [q v]. apply ns_put_in in H.
    destruct H as [H|H]; [right; left; symmetry; exact H|left; exact H].
  Qed.
  Lemma quiet_enc_tag : forall ra self fs vs own child ns, (forall f, In f fs -> quiet_item (f_label f) (f_attrs f)) ->
    enc_tag x enc ea ra self fs vs = Some (own, child, ns) -> quiet_tag (own ++ child) ns.
  Proof.
    intros ra self. induction fs as [|f fs IH]; intros [|v vs] own child ns Hf H; try discriminate; cbn [enc_tag] in H.
    - injection H as <- <- <-. apply quiet_tag_nil.
    - destruct (enc_tag x enc ea ra self fs vs) as [[[own1 child1] ns1]|] eqn:H1; [|discriminate].
      specialize (IH vs own1 child1 ns1 (fun g Hg => Hf g (or_intror Hg)) H1).
      destruct (ya_attribute (f_attrs f)).
      + apply omap_some in H. destruct H as (l & Hl & He'). injection He' as -> -> ->. rewrite <- app_assoc. apply quiet_tag_app; [|exact IH].
        split; [|apply IH]. intros t Ht.
        assert (Hq : quiet (field_qname ra f)).
        { pose proof (Hf f (or_introl eq_refl)) as Hi. apply quiet_prefixed; [apply Hi|apply quiet_label; exact Hi]. }
        assert (Hone : forall w b, omap (fun t => if left_out x self v f false then [] else [Attr (qname (field_qname ra f)) t]) (attr_show x enc b w) = Some l ->
                  no_open (name_repr (at_name t))).
        { intros w b Ho. apply omap_some in Ho. destruct Ho as (s & _ & ->). destruct (left_out x self v f false); [destruct Ht|].
          destruct Ht as [<-|[]]. cbn [at_name]. rewrite repr_qname. apply Hq. }
        unfold enc_attr in Hl. cbv zeta in Hl. destruct (f_ty f) as [b|b|b|b].
        * eapply Hone; exact Hl.
        * destruct v as [| | | | |[w|]| | |]; try discriminate; [eapply Hone; exact Hl|injection Hl as <-; destruct Ht].
        * destruct v; try discriminate. injection Hl as <-. destruct Ht.
        * discriminate.
      + assert (Hsame : Some (own1, child1, ns1) = Some (own, child, ns) -> quiet_tag (own ++ child) ns) by (intros Hs; injection Hs as <- <- <-; exact IH).
        destruct (ya_flatten (f_attrs f)); [|exact (Hsame H)]. destruct (f_ty f) as [[s|id]|b|b|b]; try exact (Hsame H).
        apply omap_some in H. destruct H as ([ca cn] & Hc & He'). injection He' as -> -> ->. apply Ha in Hc. destruct Hc as [Hc Hn], IH as [I1 I2].
        split.
        * intros t Ht. apply in_app_or in Ht. destruct Ht as [Ht|Ht]; [apply I1, in_or_app; left; exact Ht|].
          apply in_app_or in Ht. destruct Ht as [Ht|Ht]; [apply Hc; exact Ht|apply I1, in_or_app; right; exact Ht].
        * intros pu Hp. apply extend_in in Hp. destruct Hp; auto.
  Qed.
  Lemma quiet_declared : forall id td, nth_error E id = Some td -> forall pu, In pu (declared (t_attrs td)) -> no_open (fst pu).
  Proof.
    intros id td Htd pu H. destruct (HE id td Htd) as (_ & _ & Hn & _). unfold declared in H. apply extend_in in H. destruct H as [[]|H].
    apply in_map_iff in H. destruct H as (qu & <- & Hq). cbn [fst]. destruct (opt_eqb _ _); [reflexivity|apply Hn; exact Hq].
  Qed.
  Lemma quiet_start : forall id td v own child ns, nth_error E id = Some td -> enc_start x enc ea td v = Some (own, child, ns) ->
    quiet_tag (own ++ child) (ns_extend (declared (t_attrs td)) ns).
  Proof.
    intros id td v own child ns Htd H. destruct (HE id td Htd) as (_ & Ht & _ & Hb).
    assert (Hext : quiet_tag (own ++ child) ns -> quiet_tag (own ++ child) (ns_extend (declared (t_attrs td)) ns)).
    { intros [H1 H2]. split; [exact H1|]. intros pu Hp. apply extend_in in Hp. destruct Hp as [Hp|Hp]; [eapply quiet_declared; eassumption|apply H2; exact Hp]. }
    apply Hext. unfold enc_start in H. destruct (t_body td) as [fs|vars d|k]; [| |discriminate].
    - destruct v; try discriminate. eapply quiet_enc_tag; eassumption.
    - destruct v as [| | | | | | | |i l]; try discriminate. apply omap_some in H. destruct H as (vr & _ & H). injection H as -> -> ->.
      cbn [app]. split; [|intros ? []]. intros t Hi. destruct (ya_tag (t_attrs td)) as [tg|]; [|destruct Hi].
      destruct Hi as [<-|[]]. cbn. apply (Ht tg eq_refl).
  Qed.
  Lemma quiet_type : forall id v h ts, quiet_how h -> enc_type x E enc ea id v h = Some ts -> quiet_forest ts.
  Proof.
    intros id v h ts Hh H. unfold enc_type in H. destruct (nth_error E id) as [td|] eqn:Htd; [|discriminate].
    destruct (HE id td Htd) as (Hi & _ & _ & _).
    assert (Hd : match h with
                 | Inside => enc_content x enc h td v
                 | Under o => if ya_flatten (t_attrs td) then enc_content x enc h td v
                     else match enc_start x enc ea td v, enc_content x enc h td v with
                          | Some (own, child, ns), Some ks =>
                              Some [WElem (qname (opt_default (ser_root td) o)) (own ++ child) (ns_extend (declared (t_attrs td)) ns) ks]
                          | _, _ => None
                          end
                 end = Some ts -> quiet_forest ts).
    { intros H'. destruct h as [|o]; [eapply quiet_content; eassumption|].
      destruct (ya_flatten (t_attrs td)); [eapply quiet_content; eassumption|].
      destruct (enc_start x enc ea td v) as [[[own child] ns]|] eqn:Hst; [|discriminate].
      destruct (enc_content x enc (Under o) td v) as [ks|] eqn:Hk; [|discriminate]. injection H' as <-. apply quiet_elem.
      - destruct o as [q|]; [exact Hh|]. cbn [opt_default]. apply quiet_prefixed; [apply Hi|apply quiet_label; exact Hi].
      - eapply quiet_start; eassumption.
      - eapply quiet_content; eassumption. }
    destruct (t_body td) as [fs|vars d|k] eqn:Hb.
    - destruct h; exact (Hd H).
    - destruct h; exact (Hd H).
    - destruct h as [|o]; apply omap_some in H; destruct H as (t & _ & ->); [apply quiet_text|].
      apply quiet_elem; [destruct o; [exact Hh|exact (proj1 Hi)]|apply quiet_tag_nil|apply quiet_text].
  Qed.
  Lemma quiet_type_attrs : forall id v a m, enc_type_attrs x E enc ea id v = Some (a, m) -> quiet_tag a m.
  Proof.
    intros id v a m H. unfold enc_type_attrs in H. destruct (nth_error E id) as [td|] eqn:Htd; [|discriminate].
    assert (Hd : omap (fun '(own, child, ns) => (own ++ child, ns_extend (declared (t_attrs td)) ns)) (enc_start x enc ea td v) = Some (a, m) -> quiet_tag a m).
    { intros H'. apply omap_some in H'. destruct H' as ([[own child] ns] & Hs & He'). injection He' as -> ->. eapply quiet_start; eassumption. }
    destruct (t_body td); [exact (Hd H)|exact (Hd H)|]. injection H as <- <-. apply quiet_tag_nil.
  Qed.
End Quiet.

Lemma quiet_all : forall x E, quiet_names E -> forall n,
  (forall id v h ts, quiet_how h -> fst (enc_all x E n) id v h = Some ts -> quiet_forest ts) /\
  (forall id v a m, snd (enc_all x E n) id v = Some (a, m) -> quiet_tag a m).
Proof.
  intros x E HE. induction n as [|n [IH1 IH2]]; [split; discriminate|]. cbn [enc_all fst snd]. split.
  - intros. eapply quiet_type; eassumption.
  - intros. eapply quiet_type_attrs; eassumption.
Qed.
Theorem ser_quiet : forall x E id v l, quiet_names E -> ser_events x E id v = SOk l -> forall e, In e l -> quiet_event e.
Proof.
  intros x E id v l HE H. pose proof (ser_events_encode x E id v) as Hs. destruct (encode x E id v (Under None)) as [ts|] eqn:Ht.
  - rewrite Hs in H. injection H as <-. exact (proj1 (quiet_all x E HE _) id v (Under None) ts I Ht).
  - exfalso. eapply Hs. exact H.
Qed.

(** ** C37 *)
Lemma white_conf_of : forall c, white_indent c -> white_conf (econf_of c).
Proof.
  intros c H s Hs. cbn [econf_of ec_indent] in Hs. destruct (c_indent c); [|discriminate]. injection Hs as <-.
  destruct (c_indent_string c) as [t|] eqn:Ht; [apply H; exact Ht|reflexivity].
Qed.
Theorem indent_reads : forall x E c c' id v s s', quiet_names E -> white_indent c -> white_indent c' ->
  to_string_with_config x E c id v = SOk s -> to_string_with_config x E c' id v = SOk s' ->
  forall x' E' id' fuel, from_str x' E' fuel id' s = from_str x' E' fuel id' s'.
Proof.
  intros x E c c' id v s s' HE Hc Hc' H H' x' E' id' fuel. unfold to_string_with_config in *.
  destruct (ser_events x E id v) as [l| |] eqn:Hl; try discriminate. injection H as <-. injection H' as <-.
  destruct (emit_indent (econf_of c) (econf_of c') l (white_conf_of c Hc) (white_conf_of c' Hc') (ser_quiet x E id v l HE Hl)) as [H1 H2].
  unfold from_str. destruct (parse_text (emit_text (econf_of c) l)) as [e1 f1], (parse_text (emit_text (econf_of c') l)) as [e2 f2].
  cbn [s_evs s_fin] in H1, H2. subst f2.
  pose proof (proj1 (C03_lemma _ (de x' E' fuel id') 0 e1 f1)) as G1. pose proof (proj1 (C03_lemma _ (de x' E' fuel id') 0 e2 f1)) as G2.
  rewrite <- H1 in G2. transitivity (from_events x' E' fuel id' (Stream (strip e1) f1)); [exact G1|symmetry; exact G2].
Qed.
