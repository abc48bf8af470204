(** * C17: the root element of what is left for flattened fields. *)
From Verif Require Import Str Num Xml XmlText Reader Schema De SpecText TextProofs ContentProofs SpecTree SpecStruct SpecTerm SpecComplete SpecHalt
  HaltProofs HaltCheck HaltText.
Open Scope list_scope.

(** ** Names of parsed start tags *)
Definition named_tag (n : name) : Prop := xml_name (name_repr n) = true /\ n_local (qname (name_repr n)) = n_local n.
Definition named_event (e : event) : Prop := match e with EStart n _ _ => named_tag n | _ => True end.
Definition tag_name (m : pmode) : option string :=
  match m with
  | MStartName q | MAttrs q _ | MAttrName q _ _ | MAttrEq q _ _ | MAttrQuote q _ _ | MAttrVal q _ _ _ _ | MAfterVal q _ | MEmptyClose q _ => Some q
  | _ => None
  end.
Definition named_mode (m : pmode) : Prop := forall q, tag_name m = Some q -> xml_name q = true.
Definition named_state (st : pst) : Prop := (forall e, In e (p_out st) -> named_event e) /\ named_mode (p_mode st).

Lemma resolve_named : forall nss q n, resolve_elem nss q = Some n -> name_repr n = q /\ n_local n = n_local (qname q).
Proof.
  intros nss q n H. unfold resolve_elem in H.
  assert (Hr := repr_qname q). unfold name_repr in Hr |- *.
  destruct (n_prefix (qname q)) as [p|] eqn:Hp.
  - destruct (lookup_prefix nss p); [|discriminate]. injection H as <-. cbn [n_prefix n_local]. split; [exact Hr|reflexivity].
  - destruct (nss_get nss ""); injection H as <-; cbn [n_prefix n_local]; (split; [exact Hr|reflexivity]).
Qed.
Lemma named_fail : forall st m, named_state st -> named_state (pfail st m).
Proof. intros st m [H _]. split; [exact H|intros q Hq; discriminate]. Qed.
Lemma named_set : forall st m, named_state st -> named_mode m -> named_state (set_mode st m).
Proof. intros st m [H _] Hm. split; assumption. Qed.
Lemma named_none : forall m, tag_name m = None -> named_mode m.
Proof. intros m H q Hq. congruence. Qed.
Lemma named_raw : forall st m, named_state st -> named_mode m -> named_state (end_raw st m).
Proof. intros st m H Hm. unfold end_raw. destruct (unesc _); [split; [apply H|exact Hm]|apply named_fail; exact H]. Qed.
Lemma named_flush : forall st m, named_state st -> named_mode m -> named_state (flush st m).
Proof.
  intros st m H Hm. unfold flush. destruct (p_nonws st); [|split; [apply H|exact Hm]].
  destruct (p_stack st); [apply named_fail; exact H|]. split; [|exact Hm]. cbn [p_out]. intros e He. apply in_app_or in He.
  destruct He as [He|[<-|[]]]; [apply H, He|exact I].
Qed.
Lemma named_start : forall st q ats b, named_state st -> xml_name q = true -> named_state (start_tag st q ats b).
Proof.
  intros st q ats b H Hq. unfold start_tag. destruct (bad_tag q ats); [apply named_fail; exact H|].
  destruct (resolve_elem _ q) as [n|] eqn:Hn; [|apply named_fail; exact H]. destruct (resolve_attrs _ ats); [|apply named_fail; exact H].
  apply resolve_named in Hn. destruct Hn as [Hn1 Hn2].
  assert (Hnt : named_tag n) by (split; rewrite Hn1; [exact Hq|symmetry; exact Hn2]).
  destruct b; (split; [cbn [p_out]; intros e He; apply in_app_or in He|apply named_none; reflexivity]);
    destruct He as [He|[<-|He]]; try (apply H, He); try exact Hnt; try destruct He as [<-|[]]; try exact I; destruct He.
Qed.
Lemma named_end : forall st q, named_state st -> named_state (end_tag st q).
Proof.
  intros st q H. unfold end_tag. destruct (p_stack st); [apply named_fail; exact H|]. destruct (p_names st); [apply named_fail; exact H|].
  destruct (p_nss st); [apply named_fail; exact H|]. destruct (String.eqb _ q); [|apply named_fail; exact H].
  split; [cbn [p_out]; intros e He; apply in_app_or in He; destruct He as [He|[<-|[]]]; [apply H, He|exact I]|apply named_none; reflexivity].
Qed.

Lemma xml_name_more : forall q c, xml_name q = true -> is_name_char c = true -> xml_name (add1 q c) = true.
Proof.
  intros [|d q] c H Hc; [discriminate|]. unfold add1. cbn [String.append xml_name] in *. apply andb_prop in H. destruct H as [H1 H2].
  rewrite H1, all_chars_app, H2. cbn [all_chars]. rewrite Hc. reflexivity.
Qed.

Lemma named_step : forall st c, named_state st -> named_state (pstep st c).
Proof.
  intros st c H. unfold pstep.
  destruct (illegal_char c) eqn:Hc; [destruct (p_mode st); auto using named_fail|].
  pose proof H as (H1 & H5).
  destruct (p_mode st) as [ | |acc|nm ats|nm ats acc|nm ats an|nm ats an|nm ats an q acc|nm ats|nm ats|acc|acc|acc|tl|acc|acc| |msg];
    unfold named_mode in H5; cbn [tag_name] in H5;
    repeat match goal with
    | |- named_state (if ?b then _ else _) => destruct b eqn:?
    | |- named_state (match ?b with _ => _ end) => destruct b eqn:?
    end;
    auto using named_fail, named_end.
  all: try (apply named_set; [exact H|]; intros q' Hq'; cbn [tag_name] in Hq'; try discriminate; auto; fail).
  all: try (apply named_start; [exact H|auto]; fail).
  all: try (apply named_raw; [exact H|apply named_none; reflexivity]).
  all: try (apply named_flush; [exact H|]; intros q' Hq'; cbn [tag_name] in Hq'; try discriminate; injection Hq' as <-; cbn [xml_name all_chars]; rewrite ?andb_true_r; assumption).
  all: try (split; [assumption|apply named_none; reflexivity]; fail).
  - apply named_set; [exact H|]. intros q' Hq'. cbn [tag_name] in Hq'. injection Hq' as <-. apply xml_name_more; [apply H5; reflexivity|assumption].
  - split; [cbn [p_out]; intros e He; apply in_app_or in He; destruct He as [He|[<-|[]]]; [auto|exact I]|apply named_none; reflexivity].
Qed.

Lemma finish_out : forall st, s_evs (pfinish st) = p_out st.
Proof.
  intros [m o st nm ns rw bf nw se]. unfold pfinish. cbn [p_mode p_out]. destruct m; try reflexivity.
  unfold end_raw. cbn [p_raw]. destruct (unesc rw); [|reflexivity].
  cbn [p_mode p_out p_stack p_names p_nss p_raw p_buf p_nonws p_seen pfail set_mode].
  destruct st; [destruct (nw || str_nonws s)%bool; [|destruct se]|]; reflexivity.
Qed.
Lemma parsed_named : forall s e, In e (s_evs (parse_text s)) -> named_event e.
Proof.
  intros s. unfold parse_text. rewrite finish_out.
  assert (H : named_state (prun p0 s)).
  { assert (H0 : named_state p0) by (split; [intros e [<-|[]]; exact I|apply named_none; reflexivity]). revert H0. generalize p0.
    induction s as [|c s IH]; intros st H0; [exact H0|]. cbn [prun]. apply IH, named_step, H0. }
  exact (proj1 H).
Qed.

(** ** After the name of the first start tag *)
Lemma step_out : forall st c, exists l, p_out (pstep st c) = p_out st ++ l.
Proof.
  intros st c. unfold pstep, end_raw, flush, start_tag, end_tag, pfail, set_mode.
  repeat match goal with |- context [match ?b with _ => _ end] => destruct b end;
    cbn [p_out]; try (exists []; rewrite app_nil_r; reflexivity); eexists; reflexivity.
Qed.
Definition in_tag (q : string) (m : pmode) : Prop := tag_name m = Some q /\ forall s, m <> MStartName s.
Definition rooted (q : string) (st : pst) : Prop :=
  (p_out st = [EStartDoc] /\ (in_tag q (p_mode st) \/ exists m, p_mode st = MFail m)) \/
  exists n a m r, p_out st = EStartDoc :: EStart n a m :: r /\ n_local n = n_local (qname q).
Lemma rooted_start : forall q st ats b, p_out st = [EStartDoc] -> rooted q (start_tag st q ats b).
Proof.
  intros q st ats b H. unfold start_tag. destruct (bad_tag q ats); [left; split; [exact H|right; eexists; reflexivity]|].
  destruct (resolve_elem _ q) as [n|] eqn:Hn; [|left; split; [exact H|right; eexists; reflexivity]].
  destruct (resolve_attrs _ ats); [|left; split; [exact H|right; eexists; reflexivity]].
  apply resolve_named in Hn. destruct Hn as [_ Hn].
  right. destruct b; cbn [p_out]; rewrite H; cbn [app]; do 4 eexists; (split; [reflexivity|exact Hn]).
Qed.
Lemma rooted_step : forall q st c, rooted q st -> rooted q (pstep st c).
Proof.
  intros q st c H. destruct H as [[H [[Hm Hns]|[m Hm]]]|(n & a & m & r & H & Hn)].
  - assert (Hset : forall m, tag_name m = Some q -> (forall s, m <> MStartName s) -> rooted q (set_mode st m)).
    { intros m Hq Hs. left; split; [exact H|left; split; assumption]. }
    assert (Hfail : forall m, rooted q (pfail st m)) by (intros m; left; split; [exact H|right; eexists; reflexivity]).
    assert (Hst : rooted q st) by (left; split; [exact H|left; split; assumption]).
    unfold pstep. destruct (illegal_char c); [destruct (p_mode st); auto|].
    destruct (p_mode st) as [ | |acc|nm ats|nm ats acc|nm ats an|nm ats an|nm ats an q' acc|nm ats|nm ats|acc|acc|acc|tl|acc|acc| |msg];
      cbn [tag_name] in Hm; try discriminate; injection Hm as ->; [destruct (Hns q eq_refl)|..];
      repeat match goal with
      | |- rooted q (if ?b then _ else _) => destruct b eqn:?
      | |- rooted q (match ?b with _ => _ end) => destruct b eqn:?
      end; auto using rooted_start; apply Hset; (reflexivity || discriminate).
  - assert (Hs : pstep st c = st) by (unfold pstep; destruct (illegal_char c); rewrite Hm; reflexivity).
    rewrite Hs. left. split; [exact H|right; eexists; exact Hm].
  - right. destruct (step_out st c) as [l Hl]. rewrite Hl, H. cbn [app]. do 4 eexists. split; [reflexivity|exact Hn].
Qed.
Lemma rooted_run : forall q s st, rooted q st -> rooted q (prun st s).
Proof. intros q s. induction s as [|c s IH]; intros st H; [exact H|]. cbn [prun]. apply IH, rooted_step, H. Qed.
Lemma rooted_local : forall q st n, rooted q st -> root_named (pfinish st) n -> n_local n = n_local (qname q).
Proof.
  intros q st n H (a & m & r & Hr). rewrite finish_out in Hr. destruct H as [[H _]|(n' & a' & m' & r' & H & Hn)]; rewrite H in Hr; [discriminate|].
  cbn [filter] in Hr. injection Hr as <- _ _ _. exact Hn.
Qed.

(** What an emitter writes after a name. *)
Definition after_name (s : string) : Prop := match s with EmptyString => True | String c _ => c = " "%char \/ c = ">"%char end.
Lemma after_app : forall a b, after_name a -> after_name b -> after_name (a +++ b).
Proof. intros [|c a] b Ha Hb; [exact Hb|exact Ha]. Qed.
Lemma after_attr : forall p, after_name (show_attr p).
Proof. intros [k v]. left. reflexivity. Qed.
Lemma after_concat : forall l, (forall s, In s l -> after_name s) -> after_name (String.concat "" l).
Proof.
  induction l as [|s l IH]; intros H; [exact I|]. rewrite concat_cons. apply after_app; [apply H; left; reflexivity|].
  apply IH. intros t Ht. apply H; right; exact Ht.
Qed.
Lemma after_ns : forall d, after_name (show_ns d).
Proof.
  intros d. apply after_concat. intros s Hs. apply in_map_iff in Hs. destruct Hs as (p & <- & _). unfold show_ns1.
  repeat match goal with |- after_name (if ?b then _ else _) => destruct b end; try exact I; apply after_attr.
Qed.
Lemma after_attrs : forall a, after_name (show_attrs a).
Proof. intros a. apply after_concat. intros s Hs. apply in_map_iff in Hs. destruct Hs as (t & <- & _). apply after_attr. Qed.
(** Right after a start tag the emitter goes on with the end of the tag. *)
Lemma after_start : forall c st l, em_just st = true -> em_names st <> [] -> after_name (emit_from c st l).
Proof.
  intros c st [|e l] Hj Hn; [exact I|]. cbn [emit_from]. destruct e as [n a m|on|t|t]; cbn [emit1]; rewrite Hj; try (right; reflexivity).
  destruct (em_names st) as [|top rest]; [destruct (Hn eq_refl)|]. left. reflexivity.
Qed.

Theorem rest_root : forall n a m l n', named_tag n -> root_named (parse_text (emit_text default_econf (WStart n a m :: l))) n' ->
  n_local n' = n_local n.
Proof.
  intros n a m l n' [Hx Hl] H. rewrite <- Hl. unfold parse_text in H. revert H.
  unfold emit_text, default_econf. cbn [ec_decl]. rewrite prun_app.
  change (prun p0 xml_decl) with p0. rewrite emit_cons. unfold em0. cbn [emit1 em_just em_nss em_names em_flags fst snd].
  unfold indent_before_start. cbn [ec_indent].
  set (st1 := Emst true [n] _ _).
  assert (Hst : after_name (emit_from (EConf true None) st1 l)) by (apply after_start; [reflexivity|discriminate]).
  generalize dependent (emit_from (EConf true None) st1 l). clear st1 Hl. intros tl Htl.
  change ("" +++ "" +++ "<" +++ name_repr n +++ show_ns (declare [] m) +++ show_attrs a) with
    ("<" +++ name_repr n +++ show_ns (declare [] m) +++ show_attrs a).
  assert (Hs : (("<" +++ name_repr n +++ show_ns (declare [] m) +++ show_attrs a) +++ tl) =
    (("<" +++ name_repr n) +++ (show_ns (declare [] m) +++ show_attrs a +++ tl))) by (rewrite !sapp_assoc; reflexivity).
  rewrite Hs, prun_app.
  assert (Hn := p_open_name [EStartDoc] [] [] [] false "" "" (name_repr n) Hx (fun _ => eq_refl)).
  change (Pst MContent [EStartDoc] [] [] [] (esc_pcdata "") "" (str_nonws "") false) with p0 in Hn. rewrite Hn.
  change (pend [EStartDoc] ("" +++ "")) with [EStartDoc].
  assert (Ha : after_name (show_ns (declare [] m) +++ show_attrs a +++ tl)) by (repeat apply after_app; auto using after_ns, after_attrs).
  generalize dependent (show_ns (declare [] m) +++ show_attrs a +++ tl). intros [|c r] Hs Hr H.
  { destruct H as (a' & m' & r' & H). rewrite finish_out in H. discriminate. }
  eapply rooted_local; [|exact H]. cbn [prun]. apply rooted_run. destruct Hr as [->| ->].
  - left. split; [reflexivity|]. left. split; [reflexivity|discriminate].
  - change (pstep (Pst (MStartName (name_repr n)) [EStartDoc] [] [] [] "" "" false false) ">"%char) with
      (start_tag (Pst (MStartName (name_repr n)) [EStartDoc] [] [] [] "" "" false false) (name_repr n) [] false).
    apply rooted_start. reflexivity.
Qed.

(** Structs with flattened fields, whose types can be read from every document
    with a root element of the struct's name. *)
Theorem C17_flattened_any : forall x E C id s, well_named E (markup (parse_text s)) C ->
  (forall n, root_named (parse_text s) n -> C id n) ->
  (forall i t, attr_text E (markup (parse_text s)) i t -> exists f, from_str x E f i (attr_document E i t) <> OFuel) ->
  (forall i n, C i n \/ ~ C i n) ->
  (forall id' td fs f i n, struct_type E id' td fs -> In f fs -> flat_field f = true -> base_of (f_ty f) = BUser i -> C id' n ->
     forall t, (forall n', root_named (parse_text t) n' -> n_local n' = n_local n) -> exists k, from_str x E k i t <> OFuel) ->
  exists N, forall fuel, N <= fuel -> from_str x E fuel id s <> OFuel.
Proof.
  intros x E C id s H1 H2 H3 H4 H5. eapply C17_named_any; eauto.
  intros i t (id' & td & fs & f & n & a & m & pre & r & l & ws & Hst & Hf & Hff & Hu & HC & Hev & Hl & Hws & ->).
  eapply H5; eauto. intros n' Hn'. destruct ws as [|w ws]; [discriminate|]. cbn [map] in Hws. injection Hws as Hw _.
  subst w. eapply rest_root; [|exact Hn'].
  assert (Hin : In (EStart n a m) (s_evs (parse_text s))).
  { assert (Hin : In (EStart n a m) (markup (parse_text s))) by (rewrite Hev; apply in_or_app; right; left; reflexivity).
    unfold markup in Hin. apply filter_In in Hin. apply Hin. }
  exact (parsed_named _ _ Hin).
Qed.
