(** * What the emitter writes is a document of the grammar. *)
From Verif Require Import Str Xml XmlText Reader Schema De Ser Macro SpecValue ReaderProofs PropertiesReader SpecTree SpecReader SpecText SpecEnc SpecOut
  IndentProofs TextProofs AlikeTrees RoundNames SpecXml SpecWritten GrammarProofs DenoteProofs OutProofs.
Open Scope list_scope.

(** ** Names *)
Lemma all_every : forall (P : ascii -> Prop) b s, (forall c, b c = true -> P c) -> all_chars b s = true -> every P s.
Proof.
  intros P b. induction s as [|c s IH]; intros H Hs; [constructor|]. cbn [all_chars] in Hs. apply andb_prop in Hs. destruct Hs as [H1 H2].
  apply every_cons. split; [exact (H c H1)|exact (IH H H2)].
Qed.
Lemma start_letter : forall c, is_name_start c = true -> c <> ":"%char -> letter c.
Proof.
  intros c. unfold letter. cbv zeta. destruct c as [[] [] [] [] [] [] [] []]; vm_compute; intros H Hc;
  first [discriminate H|destruct (Hc eq_refl)|lia].
Qed.
Lemma char_part : forall c, is_name_char c = true -> c <> ":"%char -> name_part c.
Proof.
  intros c. unfold name_part, letter. cbv zeta. destruct c as [[] [] [] [] [] [] [] []];
  match goal with |- context [nat_of_ascii ?a] => let n := eval vm_compute in (nat_of_ascii a) in change (nat_of_ascii a) with n end;
  vm_compute is_name_char; intros H Hc;
  first [discriminate H|destruct (Hc eq_refl)|left; lia|right; left; lia|right; right; left; reflexivity|right; right; right; reflexivity].
Qed.
Lemma no_colon : forall s, split_colon s = None -> every (fun c => c <> ":"%char) s.
Proof.
  induction s as [|c s IH]; intros H; [constructor|]. cbn [split_colon] in H. destruct (Ascii.eqb_spec c ":") as [|Hc]; [discriminate H|].
  apply every_cons. split; [exact Hc|]. apply IH. destruct (split_colon s) as [[]|]; [discriminate H|reflexivity].
Qed.
Lemma simple_ncname : forall s, simple_name s -> ncname s.
Proof.
  intros [|c r] [H Hn]; [discriminate H|]. cbn [xml_name] in H. apply andb_prop in H. destruct H as [H1 H2].
  apply no_colon in Hn. apply every_cons in Hn. destruct Hn as [Hc Hr]. split; [exact (start_letter c H1 Hc)|].
  revert Hr H2. clear. induction r as [|c r IH]; intros Hr H; [constructor|].
  apply every_cons in Hr. cbn [all_chars] in H. apply andb_prop in H. destruct H as [H1 H2], Hr as [Hc Hr].
  apply every_cons. split; [exact (char_part c H1 Hc)|exact (IH Hr H2)].
Qed.
Lemma good_qualified : forall n, good_name n -> qualified (name_repr n).
Proof.
  intros n ((_ & Hl & Hp) & _). unfold name_repr. destruct (n_prefix n) as [p|].
  - right. exists p, (n_local n). split; [exact (simple_ncname p Hp)|]. split; [exact (simple_ncname _ Hl)|reflexivity].
  - left. exact (simple_ncname _ Hl).
Qed.

(** ** Characters *)
Lemma ok_legal : forall c, illegal_char c = false -> legal_char c.
Proof.
  intros c H. unfold illegal_char in H. cbv zeta in H. destruct (Nat.ltb_spec (nat_of_ascii c) 32) as [Hl|Hl]; [|right; exact Hl].
  left. apply ws_white. cbn [andb] in H. destruct (is_ws c); [reflexivity|discriminate H].
Qed.
Lemma all_legal : forall s, legal s = true -> every legal_char s.
Proof.
  intros s. unfold legal. apply all_every. intros c H. apply ok_legal. destruct (illegal_char c); [discriminate H|reflexivity].
Qed.
Definition seg (s t : string) : Prop := spelled in_text s t /\ every (fun c => c <> ">"%char) s.
Lemma spelled_app : forall lit s t s' t', spelled lit s t -> spelled lit s' t' -> spelled lit (s +++ s') (t +++ t').
Proof.
  intros lit s t s' t' H H'. induction H as [|c v s t Hc Hs IH|r v s t Hr Hs IH]; [exact H'| |].
  - rewrite !sapp_cons. apply sp_char; assumption.
  - rewrite !sapp_assoc. apply sp_ref; assumption.
Qed.
Lemma seg_app : forall s t s' t', seg s t -> seg s' t' -> seg (s +++ s') (t +++ t').
Proof. intros s t s' t' [A B] [A' B']. split; [apply spelled_app; assumption|apply every_app; split; assumption]. Qed.
Lemma seg_none : seg "" "". Proof. split; constructor. Qed.
Lemma seg_char : forall c s t, legal_char c -> c <> "<"%char -> c <> ">"%char -> c <> "&"%char -> c <> "013"%char -> seg s t -> seg (String c s) (String c t).
Proof.
  intros c s t H1 H2 H3 H4 H5 [A B]. split; [apply sp_char; [repeat split; assumption|exact A]|apply every_cons; split; assumption].
Qed.
Lemma seg_ref : forall r v s t, reference r v -> every (fun c => c <> ">"%char) r -> seg s t -> seg ("&" +++ r +++ ";" +++ s) (v +++ t).
Proof.
  intros r v s t Hr Hn [A B]. split; [apply sp_ref; assumption|]. change ("&" +++ r +++ ";" +++ s) with (String "&" (r +++ String ";" s)).
  apply every_cons. split; [discriminate|]. apply every_app. split; [exact Hn|]. apply every_cons. split; [discriminate|exact B].
Qed.
Lemma seg_pcdata : forall s, legal s = true -> no_return s -> seg (esc_pcdata s) s.
Proof.
  induction s as [|c s IH]; intros Hl Hr; [exact seg_none|].
  pose proof (all_legal _ Hl) as Hc. apply every_cons in Hc. apply every_cons in Hr. destruct Hc as [Hc _], Hr as [Hr Hrs].
  assert (Hs : legal s = true) by (unfold legal in *; cbn [all_chars] in Hl; apply andb_prop in Hl; exact (proj2 Hl)).
  specialize (IH Hs Hrs). cbn [esc_pcdata]. unfold esc_pcdata_char.
  destruct (Ascii.eqb_spec c "<") as [->|H1].
  { refine (seg_ref "lt" "<" _ _ ref_lt _ IH). unfold every. repeat constructor; discriminate. }
  destruct (Ascii.eqb_spec c ">") as [->|H2].
  { refine (seg_ref "gt" ">" _ _ ref_gt _ IH). unfold every. repeat constructor; discriminate. }
  destruct (Ascii.eqb_spec c "&") as [->|H3].
  { refine (seg_ref "amp" "&" _ _ ref_amp _ IH). unfold every. repeat constructor; discriminate. }
  exact (seg_char c _ _ Hc H1 H2 H3 Hr IH).
Qed.
Definition pale (c : ascii) : Prop := c = " "%char \/ c = "009"%char \/ c = "010"%char.
Lemma seg_pale : forall w, every pale w -> seg w w.
Proof.
  induction w as [|c w IH]; intros H; [exact seg_none|]. apply every_cons in H. destruct H as [Hc H].
  assert (Hw : legal_char c) by (left; unfold white, pale in *; tauto).
  apply seg_char; [exact Hw| | | | |exact (IH H)]; destruct Hc as [->|[->| ->]]; discriminate.
Qed.
Lemma pale_blank : forall w, every pale w -> blank w.
Proof. intros w H. unfold blank, every in *. eapply Forall_impl; [|exact H]. unfold pale, white. tauto. Qed.

(** Text runs, as written. *)
Inductive wrun : string -> string -> Prop :=
| wr_seg : forall s t, seg s t -> wrun s t
| wr_cd : forall s t i u s' t', seg s t -> cdata i u -> wrun s' t' -> wrun (s +++ i +++ s') (t +++ u +++ t').
Lemma seg_characters : forall s t, seg s t -> characters s t.
Proof.
  intros s t [A B]. split; [exact A|]. intros (u & v & ->). apply every_app in B. destruct B as [_ B]. apply every_app in B.
  destruct B as [B _]. do 2 (apply every_cons in B; destruct B as [_ B]).
  apply every_cons in B. destruct B as [Hb _]. exact (Hb eq_refl).
Qed.
Lemma wrun_text : forall s t, wrun s t -> text_run s t.
Proof.
  intros s t H. induction H as [s t H|s t i u s' t' H Hi Hr IH].
  - apply run_end. exact (seg_characters s t H).
  - apply run_more; [exact (seg_characters s t H)|left; exact Hi|exact IH].
Qed.
Lemma wrun_seg : forall s t s' t', wrun s t -> seg s' t' -> wrun (s +++ s') (t +++ t').
Proof.
  intros s t s' t' H H'. induction H as [s t H|s t i u s1 t1 H Hi Hr IH].
  - apply wr_seg. apply seg_app; assumption.
  - rewrite !sapp_assoc. apply wr_cd; assumption.
Qed.
Lemma wrun_cd : forall s t i u, wrun s t -> cdata i u -> wrun (s +++ i) (t +++ u).
Proof.
  intros s t i u H H'. induction H as [s t H|s t i' u' s1 t1 H Hi Hr IH].
  - rewrite <- (sapp_nil i), <- (sapp_nil u). apply wr_cd; [exact H|exact H'|apply wr_seg; exact seg_none].
  - rewrite !sapp_assoc. apply wr_cd; assumption.
Qed.
Lemma wrun_none : wrun "" "". Proof. apply wr_seg. exact seg_none. Qed.
Lemma written_cdata : forall s, legal s = true -> contains "]]>" s = false -> no_return s -> cdata ("<![CDATA[" +++ s +++ "]]>") s.
Proof.
  intros s Hl Hc Hr. split; [exact (all_legal s Hl)|]. split; [exact Hr|]. split; [|reflexivity].
  intros (u & v & ->). rewrite (contains_app u "]]>" v) in Hc by discriminate. discriminate Hc.
Qed.

(** The text node of a run. *)
Lemma trim_start_split : forall s, exists u, blank u /\ s = u +++ trim_start s /\ (trim_start s = "" \/ starts_dark (trim_start s)).
Proof.
  induction s as [|c s IH].
  - exists "". split; [constructor|]. split; [reflexivity|left; reflexivity].
  - cbn [trim_start]. destruct (is_ws c) eqn:Hc.
    + destruct IH as (u & Hu & E & Hd). exists (String c u). split; [apply every_cons; split; [exact (ws_white c Hc)|exact Hu]|].
      split; [rewrite sapp_cons, <- E; reflexivity|exact Hd].
    + exists "". split; [constructor|]. split; [reflexivity|right]. intros Hw. rewrite (white_ws c Hw) in Hc. discriminate Hc.
Qed.
Lemma trim_end_split : forall s, exists v, blank v /\ s = trim_end s +++ v /\ (trim_end s = "" \/ ends_dark (trim_end s)).
Proof.
  induction s as [|c s (v & Hv & E & Hd)].
  - exists "". split; [constructor|]. split; [reflexivity|left; reflexivity].
  - cbn [trim_end]. destruct (trim_end s) as [|d r] eqn:Ht.
    + destruct (is_ws c) eqn:Hc.
      * exists (String c s). split; [apply every_cons; split; [exact (ws_white c Hc)|]|split; [reflexivity|left; reflexivity]].
        rewrite E. exact Hv.
      * exists v. split; [exact Hv|]. split; [rewrite E at 1; reflexivity|right]. exists "", c. split; [reflexivity|].
        intros Hw. rewrite (white_ws c Hw) in Hc. discriminate Hc.
    + exists v. split; [exact Hv|]. split; [rewrite E at 1; reflexivity|right].
      destruct Hd as [Hd|(u & e & Hu & He)]; [discriminate Hd|]. exists (String c u), e. split; [rewrite Hu; reflexivity|exact He].
Qed.
Lemma trim_end_dark : forall s, starts_dark s -> starts_dark (trim_end s).
Proof.
  intros [|c s] H; [destruct H|]. cbn [trim_end]. destruct (trim_end s); [|exact H]. 
  change (~ white c) in H. rewrite (not_white c H). exact H.
Qed.
Lemma run_nodes : forall sc t, exists ts, text_nodes t ts /\ Forall2 (denotes sc) ts (text_node t).
Proof.
  intros sc t. unfold text_node. destruct (str_nonws t) eqn:Hn.
  - exists [XTxt (trim t)]. split; [|constructor; [apply de_txt|constructor]].
    destruct (trim_start_split t) as (u & Hu & E & Hd). destruct Hd as [Hd|Hd].
    { rewrite Hd, sapp_nil in E. subst u. rewrite (blank_nonws t Hu) in Hn. discriminate Hn. }
    destruct (trim_end_split (trim_start t)) as (v & Hv & E' & Hd'). pose proof (trim_end_dark _ Hd) as Hs.
    destruct Hd' as [Hd'|Hd']; [rewrite Hd' in Hs; destruct Hs|].
    assert (Ht : t = u +++ trim t +++ v) by (unfold trim; rewrite <- E'; exact E).
    rewrite Ht at 1. apply tn_some; assumption.
  - exists []. split; [|constructor]. apply tn_none. unfold blank. unfold str_nonws in Hn.
    apply (all_every white is_ws t ws_white). apply negb_false_iff in Hn. exact Hn.
Qed.
Lemma text_node_blank : forall t w, blank w -> text_node (t +++ w) = text_node t.
Proof.
  intros t w H. unfold text_node. rewrite nonws_app, (blank_nonws w H), orb_false_r.
  destruct (str_nonws t); [|reflexivity]. rewrite (trim_app_ws t w (blank_ws w H)). reflexivity.
Qed.

(** ** Attributes *)
Lemma hex_line : reference "#xA" (String "010" "").
Proof.
  refine (ref_hex "A" 10%N _ _); [|right; left; reflexivity].
  refine (num_one 16 "A" 10 _ _); [right; reflexivity|lia].
Qed.
Lemma hex_return : reference "#xD" (String "013" "").
Proof.
  refine (ref_hex "D" 13%N _ _); [|right; right; left; reflexivity].
  refine (num_one 16 "D" 13 _ _); [right; reflexivity|lia].
Qed.
Lemma value_written : forall s, legal s = true -> spelled (in_value """") (esc_attr s) (untab s).
Proof.
  induction s as [|c s IH]; intros Hl; [constructor|].
  pose proof (all_legal _ Hl) as Hc. apply every_cons in Hc. destruct Hc as [Hc _].
  assert (Hs : legal s = true) by (unfold legal in *; cbn [all_chars] in Hl; apply andb_prop in Hl; exact (proj2 Hl)).
  specialize (IH Hs). cbn [esc_attr untab]. unfold esc_attr_char.
  destruct (Ascii.eqb_spec c "<") as [->|H1]; [exact (sp_ref _ "lt" "<" _ _ ref_lt IH)|].
  destruct (Ascii.eqb_spec c ">") as [->|H2]; [exact (sp_ref _ "gt" ">" _ _ ref_gt IH)|].
  destruct (Ascii.eqb_spec c """") as [->|H3]; [exact (sp_ref _ "quot" """" _ _ ref_quot IH)|].
  destruct (Ascii.eqb_spec c "'") as [->|H4]; [exact (sp_ref _ "apos" "'" _ _ ref_apos IH)|].
  destruct (Ascii.eqb_spec c "&") as [->|H5]; [exact (sp_ref _ "amp" "&" _ _ ref_amp IH)|].
  destruct (Ascii.eqb_spec c "010") as [->|H6]; [exact (sp_ref _ "#xA" _ _ _ hex_line IH)|].
  destruct (Ascii.eqb_spec c "013") as [->|H7]; [exact (sp_ref _ "#xD" _ _ _ hex_return IH)|].
  change (String c "" +++ esc_attr s) with (String c (esc_attr s)). apply sp_char; [|exact IH].
  repeat split; [exact Hc|exact H3|exact H1|exact H5|exact H7|].
  destruct (Ascii.eqb_spec c "009") as [->|H8]; [left; split; [right; left; reflexivity|reflexivity]|].
  destruct (Ascii.eqb_spec c " ") as [->|H9]; [left; split; [left; reflexivity|reflexivity]|].
  right. split; [unfold white; tauto|reflexivity].
Qed.
Lemma attribute_written : forall k v, qualified k -> legal v = true -> attribute (k, untab v) (show_attr (k, v)).
Proof.
  intros k v Hk Hv. unfold show_attr. cbn [fst snd].
  refine (attribute_intro " " k "" "" """" (esc_attr v) (untab v) _ Hk _ _ _ (value_written v Hv)).
  - split; [|discriminate]. apply every_cons. split; [left; reflexivity|constructor].
  - constructor.
  - constructor.
  - left. reflexivity.
Qed.
Lemma attributes_written : forall l, (forall k v, In (k, v) l -> qualified k /\ legal v = true) ->
  attributes (map (fun p => (fst p, untab (snd p))) l) (String.concat "" (map show_attr l)).
Proof.
  induction l as [|[k v] l IH]; intros H; [constructor|]. cbn [map]. rewrite concat_cons. apply as_more.
  - destruct (H k v (or_introl eq_refl)). apply attribute_written; assumption.
  - apply IH. intros k' v' Hin. apply H. right. exact Hin.
Qed.
Definition ats_of (nss : nsstack) (m : nsmap) (a : list attr) := map nsattr (declare nss m) ++ map rawattr a.
Lemma tag_attributes : forall nss m a, (forall t, In t a -> good_attr (declare nss m :: nss) t) ->
  (forall p, In p (declare nss m) -> good_decl p) ->
  attributes (ats_of nss m a) (show_ns (declare nss m) +++ show_attrs a).
Proof.
  intros nss m a Ha Hd. rewrite show_ns_attrs by exact Hd. rewrite show_attrs_raw, <- concat_app, <- map_app.
  assert (E : ats_of nss m a = map (fun p => (fst p, untab (snd p))) (map nsattr (declare nss m) ++ map wrattr a)).
  { unfold ats_of. rewrite map_app, !map_map. f_equal. apply map_ext_in. intros p Hp. unfold nsattr. cbn [fst snd].
    destruct (Hd p Hp) as ((Hl & _) & _). rewrite (untab_legal _ Hl). reflexivity. }
  rewrite E. apply attributes_written. intros k v Hin. apply in_app_or in Hin. destruct Hin as [Hin|Hin]; apply in_map_iff in Hin; destruct Hin as (p & Hp & Hin).
  - destruct (Hd p Hin) as ((Hl & _) & _ & _ & Hq & _). unfold nsattr in Hp.
    injection Hp as <- <-. split; [|unfold legal_attr in Hl; apply andb_prop in Hl; exact (proj1 Hl)].
    destruct (String.eqb_spec (fst p) "") as [|Hne]; [left; exact letters_ncname|right]. exists "xmlns", (fst p).
    split; [exact letters_ncname|]. split; [|reflexivity]. destruct Hq as [Hq|Hq]; [contradiction|exact (simple_ncname _ Hq)].
  - destruct (Ha p Hin) as (Hg & _ & Hl & _). injection Hp as <- <-. split; [exact (good_qualified _ Hg)|exact Hl].
Qed.

(** ** Namespaces *)
Lemma nsattr_declares : forall p, declares (fst (nsattr p)) (fst p).
Proof.
  intros [p u]. unfold nsattr. cbn [fst]. destruct (String.eqb_spec p "") as [->|H]; [left; split; reflexivity|right; split; [reflexivity|exact H]].
Qed.
Lemma declares_one : forall k p q, declares k p -> declares k q -> p = q.
Proof.
  intros k p q Hp Hq. pose proof (declares_decl k "" p Hp) as E. rewrite (declares_decl k "" q Hq) in E. congruence.
Qed.
Lemma attr_not_declares : forall nss t p, good_attr nss t -> ~ declares (name_repr (at_name t)) p.
Proof.
  intros nss t p Hg Hd. pose proof (ns_decl_attr nss t Hg) as E. unfold rawattr in E. rewrite (declares_decl _ _ p Hd) in E. discriminate E.
Qed.
Lemma good_may : forall p, good_decl p -> may_declare (fst p) (snd p).
Proof.
  intros p ((_ & H1) & H3 & H4 & H6 & H5). split; [exact H4|]. split.
  { intros Hp. split; [|exact H5]. destruct H6 as [H6|H6]; [contradiction|exact (simple_ncname _ H6)]. }
  split. { split; intros E; [contradiction|]. exfalso. apply H1. rewrite E. right; right; left; reflexivity. }
  split. { intros E. apply H1. rewrite E. right; right; right; left; reflexivity. }
  intros _. split; intros E; apply H1; rewrite E; [left; reflexivity|right; left; reflexivity].
Qed.
Lemma tag_may : forall nss m a, (forall t, In t a -> good_attr (declare nss m :: nss) t) ->
  (forall p, In p (declare nss m) -> good_decl p) ->
  forall k u p, In (k, u) (ats_of nss m a) -> declares k p -> may_declare p u.
Proof.
  intros nss m a Ha Hd k u p Hin Hp. apply in_app_or in Hin. destruct Hin as [Hin|Hin]; apply in_map_iff in Hin; destruct Hin as (q & Hq & Hin).
  - assert (fst q = p). { apply (declares_one k); [|exact Hp]. replace k with (fst (nsattr q)) by (rewrite Hq; reflexivity). apply nsattr_declares. }
    subst p. replace u with (snd q) by (unfold nsattr in Hq; congruence). exact (good_may q (Hd q Hin)).
  - injection Hq as <- <-. destruct (attr_not_declares _ q p (Ha q Hin) Hp).
Qed.
Definition scope_of (nss : nsstack) : scope := nss_get nss.
Lemma tag_scope : forall nss m a, (forall t, In t a -> good_attr (declare nss m :: nss) t) ->
  opens_scope (scope_of nss) (ats_of nss m a) (scope_of (declare nss m :: nss)).
Proof.
  intros nss m a Ha p. unfold scope_of. cbn [nss_get]. destruct (ns_get (declare nss m) p) as [u|] eqn:E.
  - left. exists (fst (nsattr (p, u))), u. split; [|split; [exact (nsattr_declares (p, u))|reflexivity]].
    apply in_or_app. left. apply in_map_iff. exists (p, u). split; [unfold nsattr; reflexivity|exact (get_in _ _ _ E)].
  - right. split; [|reflexivity]. intros k u Hin Hp. apply in_app_or in Hin. destruct Hin as [Hin|Hin]; apply in_map_iff in Hin; destruct Hin as (q & Hq & Hin).
    + assert (fst q = p). { apply (declares_one k); [|exact Hp]. replace k with (fst (nsattr q)) by (rewrite Hq; reflexivity). apply nsattr_declares. }
      subst p. destruct q as [p v]. revert E Hin. generalize (declare nss m). clear. cbn [fst]. intros d. induction d as [|[q w] d IH]; intros E Hin; [destruct Hin|].
      cbn [ns_get] in E. destruct (String.eqb_spec q p) as [|Hne]; [discriminate E|]. destruct Hin as [Hi|Hi]; [injection Hi as -> _; exact (Hne eq_refl)|exact (IH E Hi)].
    + injection Hq as <- <-. destruct (attr_not_declares _ q p (Ha q Hin) Hp).
Qed.
Lemma prefix_bound : forall nss p u, lookup_prefix nss p = Some u -> bound_to (scope_of nss) p u.
Proof. intros nss p u. unfold lookup_prefix, bound_to, scope_of. destruct (String.eqb p "xml"); [|tauto]. intros E. injection E as <-. reflexivity. Qed.
Lemma tag_name : forall nss n, good_name n -> bound nss n -> elem_name (scope_of nss) (name_repr n) (rname nss n).
Proof.
  intros nss n ((_ & Hl & Hp) & _) Hb. apply simple_ncname in Hl. unfold name_repr, rname, bound in *. destruct (n_prefix n) as [p|].
  - destruct (lookup_prefix nss p) as [u|] eqn:E; [|destruct (Hb eq_refl)].
    apply en_prefixed; [exact (simple_ncname p Hp)|exact Hl|exact (prefix_bound nss p u E)].
  - destruct (nss_get nss "") as [u|] eqn:E.
    + destruct (String.eqb_spec u "") as [->|Hu]; [apply en_none; [exact Hl|right; exact E]|apply en_default; [exact Hl|exact E|exact Hu]].
    + apply en_none; [exact Hl|left; exact E].
Qed.
Lemma tag_attr_names : forall nss m a, (forall t, In t a -> good_attr (declare nss m :: nss) t) ->
  attr_names (scope_of (declare nss m :: nss)) (ats_of nss m a) (map (rattr (declare nss m :: nss)) a).
Proof.
  intros nss m a. generalize (declare nss m :: nss) as nss'. intros nss' Ha. unfold ats_of.
  induction (declare nss m) as [|p d IH].
  - cbn [map app]. induction a as [|t a IHa]; [apply an_end|]. cbn [map].
    assert (IHa' := IHa (fun t Ht => Ha t (or_intror Ht))). clear IHa.
    destruct (Ha t (or_introl eq_refl)) as (((_ & Hl & Hp) & _) & Hb & _ & H1 & H2). apply simple_ncname in Hl.
    unfold rawattr, rattr, name_repr, bound in *. destruct (n_prefix (at_name t)) as [p|].
    + destruct (lookup_prefix nss' p) as [u|] eqn:E; [|destruct (Hb eq_refl)].
      apply an_prefixed; [exact (simple_ncname p Hp)|exact Hl|congruence|exact (prefix_bound nss' p u E)|exact IHa'].
    + apply an_plain; [exact Hl|exact (H2 eq_refl)|exact IHa'].
  - cbn [map app]. destruct (nsattr p) as [k u] eqn:E. eapply an_declaration; [|exact IH].
    replace k with (fst (nsattr p)) by (rewrite E; reflexivity). apply nsattr_declares.
Qed.
Lemma sorted_below : forall m, ns_sorted m -> sorted m.
Proof. induction m as [|[p u] m IH]; intros H; [exact I|]. destruct H as [H1 H2]. split; [exact H1|exact (IH H2)]. Qed.
Lemma tag_lists : forall nss, lists (squash nss) (scope_of nss).
Proof. intros nss. split; [apply sorted_below, squash_sorted|intros p; apply squash_get]. Qed.

(** ** Elements *)
Section Emit.
  Variable c : econf.
  Hypothesis Hindent : match ec_indent c with Some ind => indentation ind | None => True end.

  Lemma pale_repeat : forall k s, every pale s -> every pale (repeat_str k s).
  Proof. induction k as [|k IH]; intros s H; [constructor|]. cbn [repeat_str]. apply every_app. split; [exact H|exact (IH s H)]. Qed.
  Lemma pale_line : forall k s, every pale s -> every pale (nl +++ repeat_str k s).
  Proof. intros k s H. apply every_cons. split; [right; right; reflexivity|exact (pale_repeat k s H)]. Qed.
  Lemma pale_start : forall st, every pale (indent_before_start c st).
  Proof.
    intros st. unfold indent_before_start. destruct (ec_indent c) as [ind|]; [|constructor].
    destruct (top_flags (em_flags st)) as [mk tx]. destruct (_ && _)%bool; [|constructor]. exact (pale_line _ _ Hindent).
  Qed.
  Lemma pale_end : forall st, every pale (indent_before_end c st).
  Proof.
    intros st. unfold indent_before_end. destruct (ec_indent c) as [ind|]; [|constructor].
    destruct (top_flags (em_flags st)) as [mk tx]. destruct (_ && _)%bool; [|constructor]. exact (pale_line _ _ Hindent).
  Qed.

  Definition writes (w : wnode) : Prop :=
    forall nss, Writable nss w -> is_elem w -> (forall e, In e (wtree w) -> no_return_event e) ->
    forall enames flags rest, exists e i s,
      emit_from c (Emst false enames nss flags) (wtree w ++ rest) =
        i +++ s +++ emit_from c (Emst false enames nss (set_markup flags)) rest /\
      every pale i /\ element e s /\ denotes (scope_of nss) e (reread nss w).

  Lemma kids_written : forall ks, (forall k, In k ks -> writes k) ->
    forall nss' nss d, nss' = d :: nss -> (forall k, In k ks -> Writable nss' k) ->
    (forall e, In e (flat_map wtree ks) -> no_return_event e) ->
    forall n enames mk tx fl rest s0 t0, wrun s0 t0 -> exists xs s,
      emit_from c (Emst false (n :: enames) nss' ((mk, tx) :: fl)) (flat_map wtree ks ++ WEnd None :: rest) =
        s +++ "</" +++ name_repr n +++ ">" +++ emit_from c (Emst false enames nss (set_markup fl)) rest /\
      inside xs (s0 +++ s) /\ Forall2 (denotes (scope_of nss')) xs (reread_kids nss' ks t0).
  Proof.
    induction ks as [|k ks IH]; intros HE nss' nss d Hnss HW HR n enames mk tx fl rest s0 t0 H0.
    - cbn [flat_map app]. rewrite emit_cons. cbn [emit1 em_names em_just em_nss em_flags fst snd tl].
      subst nss'. cbn [tl]. set (est := Emst false (n :: enames) (d :: nss) ((mk, tx) :: fl)).
      pose proof (pale_end est) as Hp. pose proof (pale_blank _ Hp) as Hb.
      destruct (run_nodes (scope_of (d :: nss)) (t0 +++ indent_before_end c est)) as (ts & Hts & Hd).
      exists ts, (indent_before_end c est). split; [rewrite !sapp_assoc; reflexivity|]. split.
      + apply (co_end _ (t0 +++ indent_before_end c est)); [|exact Hts]. apply wrun_text, wrun_seg; [exact H0|exact (seg_pale _ Hp)].
      + cbn [reread_kids]. rewrite <- (text_node_blank t0 _ Hb). exact Hd.
    - assert (Hk : Writable nss' k) by (apply HW; left; reflexivity).
      assert (Hr : forall e, In e (wtree k) -> no_return_event e) by (intros e He; apply HR; cbn [flat_map]; apply in_or_app; left; exact He).
      assert (IH' := IH (fun k Hk => HE k (or_intror Hk)) nss' nss d Hnss (fun k Hk => HW k (or_intror Hk))
        (fun e He => HR e (in_or_app _ _ _ (or_intror He)))). clear IH.
      cbn [flat_map]. rewrite <- app_assoc. destruct k as [kn ka km kk|s|s].
      + destruct (HE _ (or_introl eq_refl) nss' Hk I Hr (n :: enames) ((mk, tx) :: fl) (flat_map wtree ks ++ WEnd None :: rest)) as (e & i & s & E & Hi & He & Hd).
        cbn [set_markup] in E. destruct (IH' n enames true tx fl rest "" "" wrun_none) as (xs & s' & E' & Hin & Hf).
        rewrite E, E'. destruct (run_nodes (scope_of nss') (t0 +++ i)) as (ts & Hts & Hdt).
        exists (ts ++ e :: xs), (i +++ s +++ s'). split; [rewrite !sapp_assoc; reflexivity|]. split.
        * rewrite <- sapp_assoc. apply (co_element _ (t0 +++ i)); [|exact Hts|exact He|exact Hin].
          apply wrun_text, wrun_seg; [exact H0|exact (seg_pale _ Hi)].
        * cbn [reread_kids]. rewrite <- (text_node_blank t0 i (pale_blank i Hi)). apply Forall2_app; [exact Hdt|]. constructor; [exact Hd|exact Hf].
      + inversion Hk; subst. cbn [wtree app]. rewrite emit_cons.
        cbn [emit1 em_names em_just em_nss em_flags fst snd String.append set_text_flag].
        assert (Hs : seg (esc_pcdata s) s) by (apply seg_pcdata; [assumption|exact (Hr (WChars s) (or_introl eq_refl))]).
        destruct (IH' n enames mk true fl rest _ _ (wrun_seg _ _ _ _ H0 Hs)) as (xs & s' & E' & Hin & Hf). rewrite E'.
        exists xs, (esc_pcdata s +++ s'). rewrite sapp_assoc in Hin. split; [rewrite !sapp_assoc; reflexivity|]. split; [exact Hin|exact Hf].
      + inversion Hk; subst. cbn [wtree app]. rewrite emit_cons.
        cbn [emit1 em_names em_just em_nss em_flags fst snd set_text_flag].
        change ("" +++ "<![CDATA[" +++ s +++ "]]>") with ("<![CDATA[" +++ s +++ "]]>").
        assert (Hs : cdata ("<![CDATA[" +++ s +++ "]]>") s) by (apply written_cdata; [assumption|assumption|exact (Hr (WCData s) (or_introl eq_refl))]).
        destruct (IH' n enames mk true fl rest _ _ (wrun_cd _ _ _ _ H0 Hs)) as (xs & s' & E' & Hin & Hf). rewrite E'.
        exists xs, (("<![CDATA[" +++ s +++ "]]>") +++ s'). rewrite sapp_assoc in Hin. split; [rewrite !sapp_assoc; reflexivity|]. split; [exact Hin|exact Hf].
  Qed.

  Lemma tree_written : forall w, writes w.
  Proof.
    induction w as [s|s|n a m ks IH] using wnode_ind'; intros nss HW He HR; [destruct He|destruct He|].
    intros enames flags rest.
    inversion HW as [| |? ? ? ? ? Hn Hb Ha Hnd Hd Hks]; subst.
    rewrite reread_elem.
    assert (Hden : forall xs, Forall2 (denotes (scope_of (declare nss m :: nss))) xs (reread_kids (declare nss m :: nss) ks "") ->
      denotes (scope_of nss) (XElem (name_repr n) (ats_of nss m a) xs)
        (Elem (rname (declare nss m :: nss) n) (map (rattr (declare nss m :: nss)) a) (squash (declare nss m :: nss)) (reread_kids (declare nss m :: nss) ks ""))).
    { intros xs Hxs. apply de_elem with (sc' := scope_of (declare nss m :: nss)).
      - apply (written_nodup (declare nss m :: nss)); auto using declare_sorted.
      - apply tag_may; assumption.
      - apply tag_scope; assumption.
      - apply tag_name; assumption.
      - apply tag_attr_names; assumption.
      - apply tag_lists.
      - exact Hxs. }
    change (wtree (WElem n a m ks) ++ rest) with (WStart n a m :: (flat_map wtree ks ++ [WEnd None]) ++ rest).
    rewrite emit_cons. cbn [emit1 em_names em_just em_nss em_flags fst snd].
    set (est := Emst false enames nss flags). pose proof (pale_start est) as Hi.
    rewrite <- app_assoc. cbn [app].
    pose proof (tag_attributes nss m a Ha Hd) as Hats. pose proof (good_qualified n Hn) as Hq.
    destruct ks as [|k ks].
    - cbn [flat_map app]. rewrite emit_cons. cbn [emit1 em_names em_just em_nss em_flags fst snd tl].
      eexists. exists (indent_before_start c est), ("<" +++ name_repr n +++ (show_ns (declare nss m) +++ show_attrs a) +++ " " +++ "/>").
      split; [|split; [exact Hi|split]].
      + rewrite set_markup_twice. rewrite !sapp_assoc. reflexivity.
      + apply el_empty; [exact Hq|exact Hats|]. apply every_cons. split; [left; reflexivity|constructor].
      + apply Hden. constructor.
    - assert (Hj : forall st, em_just st = true ->
          emit_from c st (flat_map wtree (k :: ks) ++ WEnd None :: rest) =
          ">" +++ emit_from c (Emst false (em_names st) (em_nss st) (em_flags st)) (flat_map wtree (k :: ks) ++ WEnd None :: rest)).
      { intros st Hst. destruct st as [j nn sn f]. cbn [em_just em_names em_nss em_flags] in *. subst j.
        cbn [flat_map]. destruct k as [kn ka km kk|s|s]; cbn [wtree app];
        rewrite !emit_cons; cbn [emit1 em_names em_just em_nss em_flags fst snd]; rewrite <- ?sapp_assoc; try reflexivity. }
      rewrite Hj by reflexivity. cbn [em_names em_nss em_flags].
      destruct (kids_written (k :: ks) IH (declare nss m :: nss) nss (declare nss m) eq_refl Hks) with (n := n) (enames := enames) (mk := false) (tx := false)
        (fl := set_markup flags) (rest := rest) (s0 := "") (t0 := "") as (xs & s & E & Hin & Hf).
      { intros e He'. apply HR. right. apply in_or_app. left. exact He'. }
      { exact wrun_none. }
      rewrite E. exists (XElem (name_repr n) (ats_of nss m a) xs), (indent_before_start c est),
        ("<" +++ name_repr n +++ (show_ns (declare nss m) +++ show_attrs a) +++ "" +++ ">" +++ s +++ "</" +++ name_repr n +++ "" +++ ">").
      split; [|split; [exact Hi|split]].
      + rewrite set_markup_twice. rewrite !sapp_assoc. reflexivity.
      + apply el_full; [exact Hq|exact Hats|constructor|exact Hin|constructor].
      + apply Hden. exact Hf.
  Qed.
  Theorem document_written : forall w, is_elem w -> Writable [] w -> (forall e, In e (wtree w) -> no_return_event e) ->
    exists t, xml_document t (emit_text c (wtree w)) /\ denotes no_scope t (reread [] w).
  Proof.
    intros w He HW HR. unfold emit_text.
    assert (Hne : wtree w <> []) by (destruct w; [discriminate|destruct He|destruct He]).
    destruct (wtree w) as [|ev l] eqn:Hw; [contradiction|]. rewrite <- Hw in *. clear Hne Hw ev l.
    destruct (tree_written w [] HW He HR [] [(ec_decl c, false)] []) as (e & i & s & E & Hi & Hs & Hd).
    rewrite app_nil_r in E. exists e. split; [|exact Hd].
    exists (if ec_decl c then xml_decl else ""), i, "", s, "". split; [|split; [|split; [|split; [exact Hs|split; [constructor|]]]]].
    - destruct (ec_decl c); [right|left; reflexivity].
      assert (Hsp : spaces " ") by (split; [apply every_cons; split; [left; reflexivity|constructor]|discriminate]).
      exists " version=""1.0""", " encoding=""utf-8""", "", "". split; [|split; [right|split; [left; reflexivity|split; [constructor|reflexivity]]]].
      + exists " ", "", "", """"%char, "1.0". split; [exact Hsp|]. split; [constructor|]. split; [constructor|].
        split; [left; reflexivity|]. split; [left; reflexivity|reflexivity].
      + exists " ", "", "", """"%char, "utf-8". split; [exact Hsp|]. split; [constructor|]. split; [constructor|].
        split; [left; reflexivity|]. split; [right; left; reflexivity|reflexivity].
    - rewrite <- (sapp_nil i). apply mi_blank; [exact (pale_blank i Hi)|constructor].
    - left. reflexivity.
    - unfold em0. rewrite E. reflexivity.
  Qed.
End Emit.

Lemma to_string_written : forall x E c id v s, writable_types E -> own_element E id ->
  (forall l, ser_events x E id v = SOk l -> forall e, In e l -> legal_event e /\ no_return_event e) ->
  (forall i, c_indent_string c = Some i -> indentation i) ->
  to_string_with_config x E c id v = SOk s ->
  exists t w, encode x E id v (Under None) = Some [w] /\ xml_document t s /\ denotes no_scope t (reread [] w).
Proof.
  intros x E c id v s Hw Ho He Hi Hs. unfold to_string_with_config in Hs. destruct (ser_events x E id v) as [l|m|] eqn:Hl; try discriminate Hs.
  cbn [sbind_pure] in Hs. injection Hs as <-.
  destruct (flat_writable x E id v l Hw Ho Hl (fun e H => proj1 (He l eq_refl e H))) as (w & -> & Hel & HW & Henc).
  assert (Hc : match ec_indent (econf_of c) with Some ind => indentation ind | None => True end).
  { unfold econf_of. cbn [ec_indent]. destruct (c_indent c); [|exact I]. destruct (c_indent_string c) as [i|]; cbn [opt_default]; [exact (Hi i eq_refl)|].
    apply every_cons. split; [left; reflexivity|]. apply every_cons. split; [left; reflexivity|constructor]. }
  destruct (document_written (econf_of c) Hc w Hel HW (fun e H => proj2 (He _ eq_refl e H))) as (t & Hd & Hn).
  exists t, w. split; [exact Henc|]. split; [exact Hd|exact Hn].
Qed.

(** Documents of the grammar have no control characters. *)
Definition quiet_mode (p : pst) : Prop := p_mode p <> MFail "Unexpected character".
Lemma unless_quiet : forall f p, (quiet_mode p -> quiet_mode (f p)) -> quiet_mode p -> quiet_mode (unless_failed f p).
Proof. intros f p Hf Hp. unfold unless_failed. destruct (p_mode p); try exact (Hf Hp). exact Hp. Qed.
Lemma start_quiet : forall p q ats, quiet_mode (start_tag p q ats false).
Proof.
  intros p q ats. unfold start_tag, quiet_mode. destruct (bad_tag q ats); [unfold tag_fault; destruct (dup_names _); discriminate|].
  destruct (resolve_elem _ _); [|discriminate]. destruct (resolve_attrs _ _); discriminate.
Qed.
Lemma end_quiet : forall p q, quiet_mode (end_tag p q).
Proof.
  intros p q. unfold end_tag, quiet_mode. destruct (p_stack p); [discriminate|]. destruct (p_names p); [discriminate|].
  destruct (p_nss p); [discriminate|]. destruct (String.eqb _ _); discriminate.
Qed.
Lemma absorb_quiet : forall t p, quiet_mode p -> quiet_mode (absorb t p).
Proof.
  induction t as [s|q ats ks IH] using xnode_ind'; intros p Hp.
  - cbn [absorb]. apply unless_quiet; [|exact Hp]. intros H. exact H.
  - rewrite absorb_elem. apply unless_quiet; [|exact Hp]. intros _. apply unless_quiet; [intros _; apply end_quiet|].
    generalize (start_quiet p q ats). generalize (start_tag p q ats false). clear Hp.
    induction IH as [|t l Ht Hl IHl]; intros p' Hp'; [exact Hp'|]. cbn [absorbs]. apply IHl, Ht, Hp'.
Qed.
Lemma document_legal : forall t s, xml_document t s -> s_fin (parse_text s) <> FErr "Unexpected character".
Proof.
  intros t s H. destruct (document_run t s H) as [_ ->]. pose proof (absorb_quiet t p0 ltac:(discriminate)) as Hq.
  unfold quiet_mode in Hq. unfold pfinish. destruct (absorb t p0) as [m out st ns nss raw buf nw seen]. cbn [p_mode p_out] in *.
  destruct m; try discriminate; [|cbn [s_fin]; congruence].
  unfold end_raw. cbn [p_raw p_out p_stack p_names p_nss p_buf p_nonws p_seen]. destruct (unesc raw); [|discriminate].
  destruct st; [|discriminate]. destruct (_ || _)%bool; [discriminate|]. destruct seen; discriminate.
Qed.
