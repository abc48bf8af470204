(** * Parser and emitter on valid UTF-8 (C72). *)
From Verif Require Import Str Num Xml XmlText Reader Schema De Ser Checked SpecUtf8 SpecStruct WordProofs Utf8Proofs.
Open Scope list_scope.

Definition vopt (o : option string) : Prop := match o with Some s => valid s | None => True end.
Definition vname (n : name) : Prop := valid (n_local n) /\ vopt (n_ns n) /\ vopt (n_prefix n).
Definition vattr (a : attr) : Prop := vname (at_name a) /\ valid (at_value a).
Definition vmap (m : nsmap) : Prop := forall pu, In pu m -> valid (fst pu) /\ valid (snd pu).
Definition vevent (e : event) : Prop :=
  match e with
  | EStart n a m => vname n /\ (forall t, In t a -> vattr t) /\ vmap m
  | EEnd n => vname n
  | EChars s | ECData s | EWhitespace s => valid s
  | _ => True
  end.
Definition vwevent (e : wevent) : Prop :=
  match e with
  | WStart n a m => vname n /\ (forall t, In t a -> vattr t) /\ vmap m
  | WEnd o => match o with Some n => vname n | None => True end
  | WChars s | WCData s => valid s
  end.

(** ** Strings *)
Definition low (s : string) : bool := all_chars (fun c => N.ltb (N_of_ascii c) 128) s.
Lemma low_valid : forall s, low s = true -> valid s.
Proof.
  induction s as [|c s IH]; [reflexivity|]. unfold low. cbn [all_chars]. rewrite andb_true_iff, N.ltb_lt. intros [Hc Hs].
  apply valid_low; [exact Hc|apply IH; exact Hs].
Qed.
Lemma step_low_any : forall st c, proper st -> (byte c < 128)%N -> utf8_step st c = match st with [] => Some [] | _ => None end.
Proof.
  intros st c Hp Hc. destruct (utf8_step st c) as [st'|] eqn:Hs.
  - destruct (step_low_inv st c st' Hp Hs Hc) as [-> ->]. reflexivity.
  - destruct st; [rewrite step_low in Hs by exact Hc; discriminate|reflexivity].
Qed.
Lemma run_low : forall s st, proper st -> low s = true -> s <> "" -> utf8_run st s = match st with [] => Some [] | _ => None end.
Proof.
  intros [|c s] st Hp Hl Hn; [congruence|]. unfold low in Hl. cbn [all_chars] in Hl. rewrite andb_true_iff, N.ltb_lt in Hl. destruct Hl as [Hc Hs].
  cbn [utf8_run]. rewrite (step_low_any st c Hp Hc). destruct st; [exact (low_valid s Hs)|reflexivity].
Qed.
Lemma ws_low : forall c, is_ws c = true -> (byte c < 128)%N.
Proof. intros c H. unfold is_ws in H. rewrite !orb_true_iff, !Ascii.eqb_eq in H. repeat destruct H as [H|H]; subst c; reflexivity. Qed.
Lemma eqb_low : forall c d, Ascii.eqb c d = true -> N.ltb (N_of_ascii d) 128 = true -> (byte c < 128)%N.
Proof. intros c d H Hd. apply Ascii.eqb_eq in H. subst c. apply N.ltb_lt. exact Hd. Qed.

Lemma norm_run : forall s st, proper st -> utf8_run st (attr_norm s) = utf8_run st s.
Proof.
  induction s as [|c s IH]; intros st Hp; [reflexivity|]. cbn [attr_norm utf8_run].
  assert (He : utf8_step st (if is_ws c then " "%char else c) = utf8_step st c).
  { destruct (is_ws c) eqn:Hw; [|reflexivity]. rewrite !step_low_any; auto using ws_low. }
  rewrite He. destruct (utf8_step st c) as [st'|] eqn:Hs; [|reflexivity]. apply IH. apply (proper_step st c); assumption.
Qed.
Lemma esc_run : forall f, (forall c, f c = String c "" \/ ((byte c < 128)%N /\ low (f c) = true /\ f c <> "")) ->
  forall g : string -> string, g "" = "" -> (forall c r, g (String c r) = f c +++ g r) ->
  forall s st, proper st -> utf8_run st (g s) = utf8_run st s.
Proof.
  intros f Hf g Hg0 Hg. induction s as [|c s IH]; intros st Hp; [rewrite Hg0; reflexivity|]. rewrite Hg, run_app. cbn [utf8_run].
  assert (He : utf8_run st (f c) = utf8_step st c).
  { destruct (Hf c) as [->|(Hc & Hl & Hn)].
    - cbn [utf8_run]. destruct (utf8_step st c); reflexivity.
    - rewrite run_low, step_low_any by assumption. reflexivity. }
  rewrite He. destruct (utf8_step st c) as [st'|] eqn:Hs; [|reflexivity]. apply IH. apply (proper_step st c); assumption.
Qed.
Lemma esc_pcdata_valid : forall s, valid s -> valid (esc_pcdata s).
Proof.
  intros s H. unfold valid. rewrite (esc_run esc_pcdata_char); [exact H| |reflexivity|reflexivity|apply proper_nil].
  intros c. unfold esc_pcdata_char.
  repeat match goal with |- context [if Ascii.eqb c ?d then _ else _] => let H := fresh in destruct (Ascii.eqb c d) eqn:H; [right; split; [exact (eqb_low c d H eq_refl)|split; [reflexivity|discriminate]]|] end.
  left. reflexivity.
Qed.
Lemma esc_attr_valid : forall s, valid s -> valid (esc_attr s).
Proof.
  intros s H. unfold valid. rewrite (esc_run esc_attr_char); [exact H| |reflexivity|reflexivity|apply proper_nil].
  intros c. unfold esc_attr_char.
  repeat match goal with |- context [if Ascii.eqb c ?d then _ else _] => let H := fresh in destruct (Ascii.eqb c d) eqn:H; [right; split; [exact (eqb_low c d H eq_refl)|split; [reflexivity|discriminate]]|] end.
  left. reflexivity.
Qed.

Lemma trim_start_valid : forall s, valid s -> valid (trim_start s).
Proof.
  induction s as [|c s IH]; intros H; [exact H|]. cbn [trim_start]. destruct (is_ws c) eqn:Hw; [|exact H]. apply IH. apply (valid_low c); [apply ws_low; exact Hw|exact H].
Qed.
Lemma trim_end_run : forall s st, proper st -> utf8_run st s = Some [] -> utf8_run st (trim_end s) = Some [].
Proof.
  induction s as [|c s IH]; intros st Hp H; [exact H|]. cbn [utf8_run] in H. destruct (utf8_step st c) as [st'|] eqn:Hs; [|discriminate].
  specialize (IH st' (proper_step st c st' Hp Hs) H). cbn [trim_end]. destruct (trim_end s) as [|d r].
  - cbn [utf8_run] in IH. destruct (is_ws c) eqn:Hw.
    + destruct (step_low_inv st c st' Hp Hs (ws_low c Hw)) as [-> _]. reflexivity.
    + cbn [utf8_run]. rewrite Hs. exact IH.
  - cbn [utf8_run] in *. rewrite Hs. exact IH.
Qed.
Lemma trim_valid : forall s, valid s -> valid (trim s).
Proof. intros s H. unfold trim. apply trim_end_run; [apply proper_nil|]. apply trim_start_valid. exact H. Qed.

Lemma xml_char_scalar : forall n, xml_char n = true -> scalar n.
Proof. intros n H. unfold xml_char in H. rewrite !orb_true_iff, !andb_true_iff, !N.leb_le, !N.ltb_lt, !N.eqb_eq in H. unfold scalar. lia. Qed.
Lemma entity_valid : forall e t, entity e = Some t -> valid t.
Proof.
  intros e t H. unfold entity in H.
  repeat match type of H with (if ?b then _ else _) = _ => destruct b; [inversion H; subst; reflexivity|] end.
  match type of H with match ?o with Some _ => _ | None => _ end = _ => destruct o as [n|]; [|discriminate] end.
  destruct (xml_char n) eqn:Hb; [|discriminate]. inversion H; subst. apply utf8_valid, xml_char_scalar. exact Hb.
Qed.
Lemma unesc_run : forall s o t st, proper st -> utf8_run st s = Some [] -> unesc_aux o s = Some t ->
  match o with None => utf8_run st t = Some [] | Some _ => valid t end.
Proof.
  induction s as [|c s IH]; intros o t st Hp Hs H; cbn [unesc_aux] in H.
  - destruct o; inversion H; subst. exact Hs.
  - cbn [utf8_run] in Hs. destruct (utf8_step st c) as [st'|] eqn:Hc; [|discriminate].
    pose proof (proper_step st c st' Hp Hc) as Hp'.
    destruct o as [e|].
    + destruct (Ascii.eqb c ";") eqn:Hq; [|exact (IH _ _ st' Hp' Hs H)].
      destruct (step_low_inv st c st' Hp Hc (eqb_low _ _ Hq eq_refl)) as [-> ->].
      destruct (entity e) as [u|] eqn:He; [|discriminate]. destruct (unesc_aux None s) as [t'|] eqn:Hu; [|discriminate].
      inversion H; subst. apply valid_app; [apply (entity_valid e); exact He|]. exact (IH None t' [] proper_nil Hs Hu).
    + destruct (Ascii.eqb c "&") eqn:Hq.
      * destruct (step_low_inv st c st' Hp Hc (eqb_low _ _ Hq eq_refl)) as [-> ->]. exact (IH (Some "") t [] proper_nil Hs H).
      * destruct (unesc_aux None s) as [t'|] eqn:Hu; [|discriminate]. inversion H; subst. cbn [utf8_run]. rewrite Hc. exact (IH None t' st' Hp' Hs Hu).
Qed.
Lemma unesc_valid : forall s t, valid s -> unesc s = Some t -> valid t.
Proof. intros s t Hs H. exact (unesc_run s None t [] proper_nil Hs H). Qed.

Lemma split_colon_app : forall s p l, split_colon s = Some (p, l) -> s = p +++ String ":" l.
Proof.
  induction s as [|c s IH]; intros p l H; cbn [split_colon] in H; [discriminate|].
  destruct (Ascii.eqb c ":") eqn:Hc; [apply Ascii.eqb_eq in Hc; inversion H; subst; reflexivity|].
  destruct (split_colon s) as [[p' l']|]; [|discriminate]. inversion H; subst. cbn [String.append]. rewrite (IH p' l eq_refl). reflexivity.
Qed.
Lemma qname_valid : forall s, valid s -> vname (qname s).
Proof.
  intros s H. unfold qname. destruct (split_colon s) as [[p l]|] eqn:Hs; [|repeat split; exact H].
  rewrite (split_colon_app s p l Hs) in H. apply valid_cut in H; [|apply low_first; reflexivity]. destruct H as [Hp Hl].
  apply valid_low in Hl; [|reflexivity]. repeat split; assumption.
Qed.
Lemma repr_valid : forall n, vname n -> valid (name_repr n).
Proof.
  intros n (Hl & _ & Hp). unfold name_repr. destruct (n_prefix n) as [p|]; [|exact Hl]. apply valid_app; [exact Hp|]. apply valid_low; [reflexivity|exact Hl].
Qed.

Lemma points_scalar : forall n, In n blank_points -> scalar n.
Proof. intros n H. cbn [blank_points In] in H. repeat destruct H as [<-|H]; try contradiction; unfold scalar; lia. Qed.
Lemma ws_valid : forall w, In w unicode_ws -> valid w.
Proof. intros w H. rewrite ws_points in H. apply in_map_iff in H. destruct H as (n & <- & Hn). apply utf8_valid, points_scalar. exact Hn. Qed.
Lemma find_ws : forall s, ws_len s = 0 \/ exists w r, In w unicode_ws /\ s = w +++ r.
Proof.
  intros s. unfold ws_len. destruct (find (fun w => String.prefix w s) unicode_ws) as [w|] eqn:Hf; [|left; reflexivity].
  right. apply find_some in Hf. destruct Hf as [Hin Hp]. apply prefix_app in Hp. destruct Hp as [r ->]. eauto.
Qed.
Lemma split_valid : forall n s cur st, String.length s <= n -> utf8_run [] cur = Some st -> utf8_run st s = Some [] ->
  forall t, In t (split_ws_aux 0 cur s) -> valid t.
Proof.
  induction n as [|n IH]; intros s cur st Hl Hc Hs t Ht.
  - destruct s; [|cbn in Hl; lia]. cbn [split_ws_aux utf8_run] in *. destruct (is_empty cur); [destruct Ht|]. destruct Ht as [<-|[]]. unfold valid. congruence.
  - destruct (find_ws s) as [H0|(w & r & Hw & ->)].
    + destruct s as [|c s]; cbn [split_ws_aux] in Ht.
      * cbn [utf8_run] in Hs. destruct (is_empty cur); [destruct Ht|]. destruct Ht as [<-|[]]. unfold valid. congruence.
      * rewrite H0 in Ht. cbn [utf8_run] in Hs. destruct (utf8_step st c) as [st'|] eqn:Hst; [|discriminate].
        apply (IH s (cur +++ String c "") st'); [cbn in Hl; lia| |exact Hs|exact Ht].
        rewrite run_app, Hc. cbn [utf8_run]. rewrite Hst. reflexivity.
    + pose proof (ws_valid w Hw) as Hv.
      assert (valid cur /\ valid r) as [Hcur Hr].
      { assert (Hall : valid (cur +++ w +++ r)) by (unfold valid; rewrite run_app, Hc; exact Hs).
        destruct (ws_head w Hw) as (c & w' & -> & Hcont).
        assert (Hnc : ~ continuation c).
        { unfold valid in Hv. cbn [utf8_run] in Hv. destruct (utf8_step [] c) eqn:Hst; [|discriminate]. exact (step_first _ _ Hst). }
        cbn [String.append] in Hall. apply valid_cut in Hall; [|exact Hnc]. destruct Hall as [H1 H2]. split; [exact H1|]. exact (valid_rest _ r Hv H2). }
      rewrite split_ws_char in Ht by exact Hw.
      assert (Hlen : String.length r <= n).
      { destruct (ws_head w Hw) as (c & w' & -> & _). cbn [String.append String.length] in Hl.
        assert (K : forall a b, String.length b <= String.length (a +++ b)) by (induction a as [|? a Ha]; intros; cbn; [lia|specialize (Ha b); lia]).
        specialize (K w' r). lia. }
      assert (Hin : In t (split_ws_aux 0 "" r) -> valid t) by (apply (IH r "" []); [exact Hlen|reflexivity|exact Hr]).
      destruct (is_empty cur); [exact (Hin Ht)|]. destruct Ht as [<-|Ht]; [exact Hcur|exact (Hin Ht)].
Qed.
Lemma words_valid : forall s t, valid s -> In t (split_ws s) -> valid t.
Proof. intros s t H. apply (split_valid (String.length s) s "" []); [lia|reflexivity|exact H]. Qed.

(** ** Namespaces *)
Lemma put_valid : forall m p u, vmap m -> valid p -> valid u -> vmap (ns_put m p u).
Proof.
  induction m as [|[q v] m IH]; intros p u Hm Hp Hu; cbn [ns_put].
  - intros pu [<-|[]]. auto.
  - destruct (String.compare p q); [exact Hm| |]; intros pu [<-|H]; auto.
    + apply (Hm (q, v)). left. reflexivity.
    + revert pu H. apply IH; auto. intros pu H. apply Hm. right. exact H.
Qed.
Lemma extend_valid : forall m2 m, vmap m -> vmap m2 -> vmap (ns_extend m m2).
Proof.
  unfold ns_extend. induction m2 as [|[p u] m2 IH]; intros m Hm H2; [exact Hm|]. cbn [fold_left fst snd]. apply IH.
  - destruct (H2 (p, u) (or_introl eq_refl)). apply put_valid; assumption.
  - intros pu H. apply H2. right. exact H.
Qed.
Lemma nil_valid : vmap [].
Proof. intros pu []. Qed.
Lemma squash_valid : forall st, (forall m, In m st -> vmap m) -> vmap (squash st).
Proof.
  intros st H. unfold squash. assert (K : forall st acc, vmap acc -> (forall m, In m st -> vmap m) -> vmap (fold_left ns_extend st acc)).
  { clear. induction st as [|m st IH]; intros acc Ha H; [exact Ha|]. cbn [fold_left]. apply IH; [apply extend_valid; [exact Ha|apply H; left; reflexivity]|intros m' Hm; apply H; right; exact Hm]. }
  apply K; [apply nil_valid|exact H].
Qed.
Lemma get_valid : forall m p u, vmap m -> ns_get m p = Some u -> valid u.
Proof.
  induction m as [|[q v] m IH]; intros p u Hm H; cbn [ns_get] in H; [discriminate|]. destruct (String.eqb q p).
  - inversion H; subst. apply (Hm (q, u) (or_introl eq_refl)).
  - apply (IH p); [intros pu Hp; apply Hm; right; exact Hp|exact H].
Qed.
Lemma nss_valid : forall st p u, (forall m, In m st -> vmap m) -> nss_get st p = Some u -> valid u.
Proof.
  induction st as [|m st IH]; intros p u Hs H; cbn [nss_get] in H; [discriminate|]. destruct (ns_get m p) as [v|] eqn:Hg.
  - inversion H; subst. apply (get_valid m p); [apply Hs; left; reflexivity|exact Hg].
  - apply (IH p); [intros m' Hm; apply Hs; right; exact Hm|exact H].
Qed.
Lemma declare_valid : forall st m, vmap m -> vmap (declare st m).
Proof.
  intros st m Hm. unfold declare. assert (K : forall m acc, vmap acc -> vmap m -> vmap (fold_left (fun cur pu => if nss_has (cur :: st) (fst pu) (snd pu) then cur else ns_put cur (fst pu) (snd pu)) m acc)).
  { clear. induction m as [|pu m IH]; intros acc Ha Hm; [exact Ha|]. cbn [fold_left]. apply IH; [|intros q Hq; apply Hm; right; exact Hq].
    destruct (nss_has _ _ _); [exact Ha|]. destruct (Hm pu (or_introl eq_refl)). apply put_valid; assumption. }
  apply K; [apply nil_valid|exact Hm].
Qed.

(** ** The emitter *)
Lemma show_attr_valid : forall n v, valid n -> valid v -> valid (show_attr (n, v)).
Proof.
  intros n v Hn Hv. unfold show_attr. cbn [fst snd]. apply valid_low; [reflexivity|]. apply valid_app; [exact Hn|]. do 2 (apply valid_low; [reflexivity|]).
  apply valid_app; [apply esc_attr_valid; exact Hv|reflexivity].
Qed.
Lemma concat_valid : forall l, (forall s, In s l -> valid s) -> valid (String.concat "" l).
Proof.
  induction l as [|s l IH]; intros H; [reflexivity|]. cbn [String.concat]. destruct l as [|t l]; [apply H; left; reflexivity|].
  apply valid_app; [apply H; left; reflexivity|]. apply (valid_app "" _ eq_refl). apply IH. intros u Hu. apply H. right. exact Hu.
Qed.
Lemma show_attrs_valid : forall l, (forall a, In a l -> vattr a) -> valid (show_attrs l).
Proof.
  intros l H. unfold show_attrs. apply concat_valid. intros s Hs. apply in_map_iff in Hs. destruct Hs as (a & <- & Ha). destruct (H a Ha) as [Hn Hv].
  apply show_attr_valid; [apply repr_valid; exact Hn|exact Hv].
Qed.
Lemma show_ns_valid : forall m, vmap m -> valid (show_ns m).
Proof.
  intros m H. unfold show_ns. apply concat_valid. intros s Hs. apply in_map_iff in Hs. destruct Hs as (pu & <- & Hp). destruct (H pu Hp) as [H1 H2].
  unfold show_ns1. repeat match goal with |- context [if ?b then _ else _] => destruct b end; try reflexivity; apply show_attr_valid; try assumption; try reflexivity.
Qed.
Definition vconf (c : econf) : Prop := match ec_indent c with Some s => valid s | None => True end.
Lemma repeat_valid : forall n s, valid s -> valid (repeat_str n s).
Proof. induction n as [|n IH]; intros s H; [reflexivity|]. cbn [repeat_str]. apply valid_app; auto. Qed.
Lemma indent_valid : forall c st, vconf c -> valid (indent_before_start c st) /\ valid (indent_before_end c st).
Proof.
  intros c st H. unfold indent_before_start, indent_before_end, vconf in *. destruct (ec_indent c) as [i|]; [|split; reflexivity].
  destruct (top_flags (em_flags st)) as [mk tx]. split; match goal with |- context [if ?b then _ else _] => destruct b end; try reflexivity;
    apply valid_low; try reflexivity; apply repeat_valid; exact H.
Qed.
Lemma emit_valid : forall c l st, vconf c -> (forall e, In e l -> vwevent e) -> (forall n, In n (em_names st) -> vname n) -> valid (emit_from c st l).
Proof.
  intros c. induction l as [|e l IH]; intros st Hc He Hn; [reflexivity|]. cbn [emit_from].
  destruct (emit1 c st e) as [t st'] eqn:H1.
  assert (Hf : valid (if em_just st then ">" else "")) by (destruct (em_just st); reflexivity).
  destruct (indent_valid c st Hc) as [Hs Hd].
  assert (valid t /\ forall n, In n (em_names st') -> vname n) as [Ht Hn'].
  { specialize (He e (or_introl eq_refl)). unfold emit1 in H1. destruct e as [n a m|o|s|s]; cbn [vwevent] in He.
    - destruct He as (Hna & Ha & Hm). inversion H1; subst. split.
      + apply valid_app; [exact Hf|]. apply valid_app; [exact Hs|]. apply valid_low; [reflexivity|]. apply valid_app; [apply repr_valid; exact Hna|].
        apply valid_app; [apply show_ns_valid, declare_valid; exact Hm|apply show_attrs_valid; exact Ha].
      + cbn [em_names]. intros k [<-|Hk]; auto.
    - destruct (em_names st) as [|top rest] eqn:Hns; inversion H1; subst.
      + split; [reflexivity|]. rewrite Hns. intros k [].
      + split; [|cbn [em_names]; intros k Hk; apply Hn; right; exact Hk].
        destruct (em_just st); [reflexivity|]. apply valid_app; [exact Hd|]. do 2 (apply valid_low; [reflexivity|]).
        apply valid_app; [apply repr_valid, Hn; left; reflexivity|reflexivity].
    - inversion H1; subst. split; [|exact Hn]. apply valid_app; [exact Hf|apply esc_pcdata_valid; exact He].
    - inversion H1; subst. split; [|exact Hn]. apply valid_app; [exact Hf|]. apply (valid_app "<![CDATA[" (s +++ "]]>")); [reflexivity|]. apply valid_app; [exact He|reflexivity]. }
  apply valid_app; [exact Ht|]. apply IH; [exact Hc| |exact Hn']. intros e' He'. apply He. right. exact He'.
Qed.
Lemma text_valid : forall c l, vconf c -> (forall e, In e l -> vwevent e) -> valid (emit_text c l).
Proof.
  intros c [|e l] Hc He; [reflexivity|]. unfold emit_text. apply valid_app; [destruct (ec_decl c); reflexivity|]. apply emit_valid; auto. intros n [].
Qed.

(** ** The parser *)
Definition vraw (ats : list (string * string)) : Prop := forall a, In a ats -> valid (fst a) /\ valid (snd a).
(** [s] is the state of the validation of the text read so far: where in a
    character the parser is. *)
Definition umode (s : ranges) (m : pmode) : Prop :=
  match m with
  | MTagOpen => s = []
  | MStartName acc | MCData acc | MPI acc | MBang acc => utf8_run [] acc = Some s
  | MAttrs nm ats => s = [] /\ valid nm /\ vraw ats
  | MAttrName nm ats acc => valid nm /\ vraw ats /\ utf8_run [] acc = Some s
  | MAttrEq nm ats an | MAttrQuote nm ats an => valid nm /\ vraw ats /\ valid an
  | MAttrVal nm ats an q acc => valid nm /\ vraw ats /\ valid an /\ (byte q < 128)%N /\ utf8_run [] acc = Some s
  | MAfterVal nm ats | MEmptyClose nm ats => valid nm /\ vraw ats
  | _ => True
  end.
Definition uraw (s : ranges) (m : pmode) (raw : string) : Prop :=
  match m with MFail _ => True | MContent => utf8_run [] raw = Some s | _ => raw = "" end.
Definition uni (s : ranges) (st : pst) : Prop :=
  (forall e, In e (p_out st) -> vevent e) /\ (forall n, In n (p_names st) -> vname n) /\ (forall m, In m (p_nss st) -> vmap m) /\
  uraw s (p_mode st) (p_raw st) /\ valid (p_buf st) /\ umode s (p_mode st).

Lemma uni_fail : forall s s' st m, uni s st -> uni s' (pfail st m).
Proof. intros s s' st m (H1 & H2 & H3 & H4 & H5 & H6). unfold uni. cbn [pfail set_mode p_out p_names p_nss p_mode p_raw p_buf uraw umode]. auto 8. Qed.
Lemma uni_mode : forall s s' st m, uni s st -> uraw s' m (p_raw st) -> umode s' m -> uni s' (set_mode st m).
Proof. intros s s' st m (H1 & H2 & H3 & H4 & H5 & H6) Hr Hm. unfold uni. cbn [set_mode p_out p_names p_nss p_mode p_raw p_buf]. auto 8. Qed.
Lemma uni_end_raw : forall s s' st m, uni s st -> valid (p_raw st) -> umode s' m -> uraw s' m "" -> uni s' (end_raw st m).
Proof.
  intros s s' st m H Hv Hm Hr. unfold end_raw. destruct (unesc (p_raw st)) as [t|] eqn:Hu; [|apply (uni_fail s); exact H].
  destruct H as (H1 & H2 & H3 & H4 & H5 & _). unfold uni. cbn [p_out p_names p_nss p_mode p_raw p_buf].
  repeat (split; [assumption|]). split; [apply valid_app; [exact H5|apply (unesc_valid (p_raw st)); assumption]|exact Hm].
Qed.
Lemma uni_flush : forall s s' st m, uni s st -> umode s' m -> uraw s' m (p_raw st) -> uni s' (flush st m).
Proof.
  intros s s' st m H Hm Hr. unfold flush. pose proof H as (H1 & H2 & H3 & H4 & H5 & H6). destruct (p_nonws st).
  - destruct (p_stack st); [apply (uni_fail s); exact H|]. unfold uni. cbn [p_out p_names p_nss p_mode p_raw p_buf]. split; [|repeat (split; [assumption||reflexivity|]); exact Hm].
    intros e He. apply in_app_or in He. destruct He as [He|[<-|[]]]; [auto|]. apply trim_valid. exact H5.
  - unfold uni. cbn [p_out p_names p_nss p_mode p_raw p_buf]. repeat (split; [assumption||reflexivity|]). exact Hm.
Qed.
Lemma decl_valid : forall a p u, valid (fst a) -> valid (snd a) -> ns_decl a = Some (p, u) -> valid p /\ valid u.
Proof.
  intros a p u H1 H2 H. unfold ns_decl in H. destruct (qname_valid (fst a) H1) as (Hl & _ & _). destruct (n_prefix (qname (fst a))) as [q|].
  - assert (K : Some (n_local (qname (fst a)), snd a) = Some (p, u)).
    { revert H. repeat match goal with |- context [match ?z with _ => _ end] => is_var z; destruct z; try discriminate end. exact (fun H => H). }
    inversion K; subst. split; assumption.
  - destruct (String.eqb (n_local (qname (fst a))) "xmlns"); inversion H; subst. split; [reflexivity|exact H2].
Qed.
Lemma decls_valid : forall ats, vraw ats -> vmap (decls_of ats).
Proof.
  induction ats as [|a ats IH]; intros H; [apply nil_valid|]. cbn [decls_of]. assert (Hr : vmap (decls_of ats)) by (apply IH; intros b Hb; apply H; right; exact Hb).
  destruct (H a (or_introl eq_refl)) as [H1 H2]. destruct (ns_decl a) as [[p u]|] eqn:Hd; [|exact Hr]. destruct (decl_valid a p u H1 H2 Hd). apply put_valid; assumption.
Qed.
Lemma lookup_valid : forall nss p u, (forall m, In m nss -> vmap m) -> lookup_prefix nss p = Some u -> valid u.
Proof. intros nss p u H Hl. unfold lookup_prefix in Hl. destruct (String.eqb p "xml"); [inversion Hl; reflexivity|]. apply (nss_valid nss p); assumption. Qed.
Lemma elem_valid : forall nss q n, (forall m, In m nss -> vmap m) -> valid q -> resolve_elem nss q = Some n -> vname n.
Proof.
  intros nss q n Hn Hq H. unfold resolve_elem in H. destruct (qname_valid q Hq) as (Hl & _ & Hp). destruct (n_prefix (qname q)) as [p|].
  - destruct (lookup_prefix nss p) as [u|] eqn:Hu; [|discriminate]. inversion H; subst. repeat split; [exact Hl|exact (lookup_valid nss p u Hn Hu)|exact Hp].
  - destruct (nss_get nss "") as [u|] eqn:Hu; inversion H; subst; repeat split; try exact Hl. cbn [n_ns]. destruct (String.eqb u ""); [exact I|exact (nss_valid nss "" u Hn Hu)].
Qed.
Lemma attr_name_valid : forall nss q n, (forall m, In m nss -> vmap m) -> valid q -> resolve_attr_name nss q = Some n -> vname n.
Proof.
  intros nss q n Hn Hq H. unfold resolve_attr_name in H. pose proof (qname_valid q Hq) as Hv. destruct Hv as (Hl & Hns & Hp). destruct (n_prefix (qname q)) as [p|] eqn:Hpx.
  - destruct (lookup_prefix nss p) as [u|] eqn:Hu; [|discriminate]. inversion H; subst. repeat split; [exact Hl|exact (lookup_valid nss p u Hn Hu)|exact Hp].
  - inversion H; subst. apply qname_valid. exact Hq.
Qed.
Lemma attrs_valid : forall nss ats al, (forall m, In m nss -> vmap m) -> vraw ats -> resolve_attrs nss ats = Some al -> forall a, In a al -> vattr a.
Proof.
  intros nss. induction ats as [|a ats IH]; intros al Hn Hr H t Ht; cbn [resolve_attrs] in H; [inversion H; subst; destruct Ht|].
  assert (Hr' : vraw ats) by (intros b Hb; apply Hr; right; exact Hb). destruct (Hr a (or_introl eq_refl)) as [H1 H2].
  destruct (ns_decl a); [apply (IH al); assumption|]. destruct (resolve_attr_name nss (fst a)) as [n|] eqn:Hna; [|discriminate].
  destruct (resolve_attrs nss ats) as [al'|] eqn:Ha; [|discriminate]. inversion H; subst. destruct Ht as [<-|Ht]; [|apply (IH al'); auto].
  split; [apply (attr_name_valid nss (fst a)); assumption|exact H2].
Qed.
Lemma uni_start : forall s st q ats b, uni s st -> valid q -> vraw ats -> uni [] (start_tag st q ats b).
Proof.
  intros s st q ats b H Hq Ha. unfold start_tag. destruct (bad_tag q ats); [apply (uni_fail s); exact H|].
  destruct (resolve_elem _ q) as [n|] eqn:Hn; [|apply (uni_fail s); exact H]. destruct (resolve_attrs _ ats) as [al|] eqn:Hal; [|apply (uni_fail s); exact H].
  destruct H as (H1 & H2 & H3 & H4 & H5 & H6).
  assert (Hs : forall m, In m (decls_of ats :: p_nss st) -> vmap m) by (intros m [<-|Hm]; [apply decls_valid; exact Ha|auto]).
  assert (Hname : vname n) by (apply (elem_valid _ q n Hs Hq Hn)).
  assert (He : vevent (EStart n al (squash (decls_of ats :: p_nss st)))) by (split; [exact Hname|split; [apply (attrs_valid _ _ _ Hs Ha Hal)|apply squash_valid; exact Hs]]).
  destruct b; unfold uni; cbn [p_out p_names p_nss p_mode p_raw p_buf].
  - split; [|repeat (split; [assumption||reflexivity|]); exact I]. intros e Hin. apply in_app_or in Hin. destruct Hin as [Hin|[<-|[<-|[]]]]; auto.
  - split; [|split; [|split; [exact Hs|repeat (split; [reflexivity|]); exact I]]].
    + intros e Hin. apply in_app_or in Hin. destruct Hin as [Hin|[<-|[]]]; auto.
    + intros m [<-|Hm]; auto.
Qed.
Lemma uni_end : forall s st q, uni s st -> uni [] (end_tag st q).
Proof.
  intros s st q H. unfold end_tag. destruct (p_stack st) as [|k ss]; [apply (uni_fail s); exact H|].
  destruct (p_names st) as [|n ns] eqn:Hns; [apply (uni_fail s); exact H|]. destruct (p_nss st) as [|m sc] eqn:Hsc; [apply (uni_fail s); exact H|].
  destruct (String.eqb k q); [|apply (uni_fail s); exact H]. destruct H as (H1 & H2 & H3 & H4 & H5 & H6). rewrite Hns in H2. rewrite Hsc in H3.
  unfold uni. cbn [p_out p_names p_nss p_mode p_raw p_buf]. split; [|split; [|split; [|repeat (split; [reflexivity|]); exact I]]].
  - intros e He. apply in_app_or in He. destruct He as [He|[<-|[]]]; [auto|]. apply H2. left. reflexivity.
  - intros k' Hk. apply H2. right. exact Hk.
  - intros k' Hk. apply H3. right. exact Hk.
Qed.
Lemma substring_all : forall a m, String.length a <= m -> substring 0 m a = a.
Proof. induction a as [|c a IH]; intros [|m] H; cbn in *; try reflexivity; try lia. rewrite IH by lia. reflexivity. Qed.
Lemma substring_split : forall a n, n <= String.length a -> a = substring 0 n a +++ substring n (String.length a - n) a.
Proof.
  induction a as [|c a IH]; intros [|n] H; cbn [String.length] in *; try lia; try reflexivity.
  - replace (S (String.length a) - 0) with (S (String.length a)) by lia. cbn [substring String.append]. rewrite substring_all by lia. reflexivity.
  - cbn [substring String.append]. f_equal. replace (S (String.length a) - S n) with (String.length a - n) by lia. apply IH. lia.
Qed.
Lemma ends_with : forall a k m, k <= String.length a -> String.eqb (substring (String.length a - k) k a) m = true ->
  a = substring 0 (String.length a - k) a +++ m.
Proof.
  intros a k m Hk H. apply String.eqb_eq in H. rewrite (substring_split a (String.length a - k)) at 1 by lia.
  replace (String.length a - (String.length a - k)) with k by lia. rewrite H. reflexivity.
Qed.
Lemma run_ends : forall d m s, utf8_run [] (d +++ m) = Some s -> low m = true -> m <> "" -> valid d /\ s = [].
Proof.
  intros d m s H Hl Hn. rewrite run_app in H. destruct (utf8_run [] d) as [st|] eqn:Hd; [|discriminate].
  rewrite run_low in H by (assumption || apply (proper_run d [] st proper_nil Hd)). destruct st; inversion H. split; [exact Hd|reflexivity].
Qed.

Lemma uni_step : forall s s' st c, proper s -> utf8_step s c = Some s' -> uni s st -> uni s' (pstep st c).
Proof.
  intros s s' st c Hps Hst H. unfold pstep.
  destruct (illegal_char c).
  { destruct (p_mode st) eqn:Hm; try (apply (uni_fail s); exact H). destruct H as (H1 & H2 & H3 & H4 & H5 & H6). unfold uni. rewrite Hm. repeat (split; [assumption||exact I|]). exact I. }
  assert (Hadd : forall acc, utf8_run [] acc = Some s -> utf8_run [] (add1 acc c) = Some s').
  { intros acc Ha. unfold add1. rewrite run_app, Ha. cbn [utf8_run]. rewrite Hst. reflexivity. }
  assert (Hlow : (byte c < 128)%N -> s = [] /\ s' = []) by (apply step_low_inv; assumption).
  assert (Heq : forall d, Ascii.eqb c d = true -> N.ltb (N_of_ascii d) 128 = true -> s = [] /\ s' = []) by (intros d H0 H1; apply Hlow; exact (eqb_low c d H0 H1)).
  assert (Hws : is_ws c = true -> s = [] /\ s' = []) by (intros H0; apply Hlow, ws_low; exact H0).
  assert (Hname : s = [] -> utf8_run [] (String c "") = Some s') by (intros ->; cbn [utf8_run]; rewrite Hst; reflexivity).
  assert (Hnil : vraw []) by (intros a []).
  pose proof H as (H1 & H2 & H3 & H4 & H5 & H6).
  assert (Hsame : (p_mode st <> MContent -> umode s' (p_mode st)) -> p_mode st <> MContent -> uni s' st).
  { intros Hu Hn. unfold uni. repeat (split; [assumption|]). split; [|split; [exact H5|auto]]. destruct (p_mode st); try exact H4. congruence. }
  destruct (p_mode st) as [ | |acc|nm ats|nm ats acc|nm ats an|nm ats an|nm ats an q acc|nm ats|nm ats|acc|acc|acc|tl|acc|acc| |msg] eqn:Hmode;
    cbn [umode uraw] in H4, H6.
  - (* MContent *) destruct (Ascii.eqb c "<") eqn:Hc.
    + destruct (Heq _ Hc eq_refl) as [-> ->]. apply (uni_end_raw []); [exact H|exact H4|reflexivity|reflexivity].
    + unfold uni. cbn [p_out p_names p_nss p_mode p_raw p_buf uraw umode]. repeat (split; [assumption|]). split; [apply Hadd; exact H4|split; [exact H5|exact I]].
  - (* MTagOpen *) destruct (Ascii.eqb c "/"); [apply (uni_flush s); [exact H|exact I|exact H4]|].
    destruct (Ascii.eqb c "!") eqn:Hc; [destruct (Heq _ Hc eq_refl) as [-> ->]; apply (uni_mode []); [exact H|exact H4|reflexivity]|].
    destruct (Ascii.eqb c "?") eqn:Hc2; [destruct (Heq _ Hc2 eq_refl) as [-> ->]; apply (uni_flush []); [exact H|reflexivity|exact H4]|].
    destruct (is_name_start c); [|apply (uni_fail s); exact H]. apply (uni_flush s); [exact H|apply Hname; exact H6|exact H4].
  - (* MStartName *) destruct (is_name_char c); [apply (uni_mode s); [exact H|exact H4|apply Hadd; exact H6]|].
    destruct (is_ws c) eqn:Hc; [destruct (Hws eq_refl) as [-> ->]; apply (uni_mode []); [exact H|exact H4|split; [reflexivity|split; assumption]]|].
    destruct (Ascii.eqb c ">") eqn:Hc2; [destruct (Heq _ Hc2 eq_refl) as [-> ->]; apply (uni_start []); assumption|].
    destruct (Ascii.eqb c "/") eqn:Hc3; [destruct (Heq _ Hc3 eq_refl) as [-> ->]; apply (uni_mode []); [exact H|exact H4|split; assumption]|]. apply (uni_fail s); exact H.
  - (* MAttrs *) destruct H6 as (-> & H6 & H7). destruct (is_ws c) eqn:Hc; [apply Hsame; [|discriminate]; intros _; destruct (Hws eq_refl) as [_ ->]; split; [reflexivity|split; assumption]|].
    destruct (Ascii.eqb c ">") eqn:Hc2; [destruct (Heq _ Hc2 eq_refl) as [_ ->]; apply (uni_start []); assumption|].
    destruct (Ascii.eqb c "/") eqn:Hc3; [apply (uni_mode []); [exact H|exact H4|split; assumption]|].
    destruct (is_name_start c); [|apply (uni_fail []); exact H]. apply (uni_mode []); [exact H|exact H4|]. split; [exact H6|split; [exact H7|apply Hname; reflexivity]].
  - (* MAttrName *) destruct H6 as (H6 & H7 & H8). destruct (is_name_char c); [apply (uni_mode s); [exact H|exact H4|split; [exact H6|split; [exact H7|apply Hadd; exact H8]]]|].
    destruct (is_ws c) eqn:Hc; [destruct (Hws eq_refl) as [-> ->]; apply (uni_mode []); [exact H|exact H4|split; [exact H6|split; [exact H7|exact H8]]]|].
    destruct (Ascii.eqb c "=") eqn:Hc2; [destruct (Heq _ Hc2 eq_refl) as [-> ->]; apply (uni_mode []); [exact H|exact H4|split; [exact H6|split; [exact H7|exact H8]]]|]. apply (uni_fail s); exact H.
  - (* MAttrEq *) destruct (is_ws c); [apply Hsame; [intros _; exact H6|discriminate]|]. destruct (Ascii.eqb c "="); [apply (uni_mode s); [exact H|exact H4|exact H6]|]. apply (uni_fail s); exact H.
  - (* MAttrQuote *) destruct (is_ws c); [apply Hsame; [intros _; exact H6|discriminate]|]. destruct H6 as (H6 & H7 & H8).
    destruct (Ascii.eqb c """" || Ascii.eqb c "'")%bool eqn:Hc; [|apply (uni_fail s); exact H].
    assert (Hb : (byte c < 128)%N) by (apply orb_true_iff in Hc; destruct Hc as [Hc|Hc]; exact (eqb_low _ _ Hc eq_refl)).
    destruct (Hlow Hb) as [-> ->]. apply (uni_mode []); [exact H|exact H4|]. repeat (split; [assumption|]). reflexivity.
  - (* MAttrVal *) destruct H6 as (H6 & H7 & H8 & H9 & H10). destruct (Ascii.eqb c q) eqn:Hc.
    + apply Ascii.eqb_eq in Hc. subst q. destruct (Hlow H9) as [-> ->]. destruct (unesc (attr_norm acc)) as [v|] eqn:Hu; [|apply (uni_fail []); exact H].
      apply (uni_mode []); [exact H|exact H4|]. split; [exact H6|]. intros a Ha. apply in_app_or in Ha. destruct Ha as [Ha|[<-|[]]]; [auto|]. split; [exact H8|].
      apply (unesc_valid (attr_norm acc)); [|exact Hu]. unfold valid. rewrite norm_run by apply proper_nil. exact H10.
    + destruct (Ascii.eqb c "<"); [apply (uni_fail s); exact H|]. apply (uni_mode s); [exact H|exact H4|]. repeat (split; [assumption|]). apply Hadd. exact H10.
  - (* MAfterVal *) destruct H6 as (H6 & H7). destruct (is_ws c) eqn:Hc; [destruct (Hws eq_refl) as [-> ->]; apply (uni_mode []); [exact H|exact H4|split; [reflexivity|split; assumption]]|].
    destruct (Ascii.eqb c ">") eqn:Hc2; [destruct (Heq _ Hc2 eq_refl) as [-> ->]; apply (uni_start []); assumption|].
    destruct (Ascii.eqb c "/"); [apply (uni_mode s); [exact H|exact H4|split; assumption]|]. apply (uni_fail s); exact H.
  - (* MEmptyClose *) destruct H6 as (H6 & H7). destruct (Ascii.eqb c ">") eqn:Hc; [|apply (uni_fail s); exact H]. destruct (Heq _ Hc eq_refl) as [-> ->]. apply (uni_start []); assumption.
  - (* MEndName *) destruct (is_name_char c); [apply (uni_mode s); [exact H|exact H4|exact I]|]. destruct (is_ws c); [apply (uni_mode s); [exact H|exact H4|exact I]|].
    destruct (Ascii.eqb c ">") eqn:Hc; [destruct (Heq _ Hc eq_refl) as [-> ->]; apply (uni_end []); exact H|apply (uni_fail s); exact H].
  - (* MEndWs *) destruct (is_ws c); [apply Hsame; [intros _; exact I|discriminate]|].
    destruct (Ascii.eqb c ">") eqn:Hc; [destruct (Heq _ Hc eq_refl) as [-> ->]; apply (uni_end []); exact H|apply (uni_fail s); exact H].
  - (* MBang *) specialize (Hadd acc H6). destruct (String.eqb (add1 acc c) "--"); [apply (uni_mode s); [exact H|exact H4|exact I]|].
    destruct (String.eqb (add1 acc c) "[CDATA[") eqn:Hc.
    + apply String.eqb_eq in Hc. rewrite Hc in Hadd. inversion Hadd; subst s'. destruct (p_stack st); [apply (uni_fail s); exact H|]. apply (uni_mode s); [exact H|exact H4|reflexivity].
    + destruct (String.eqb (add1 acc c) "DOCTYPE"); [destruct (p_seen st); [apply (uni_fail s); exact H|apply (uni_mode s); [exact H|exact H4|exact I]]|].
      destruct (_ || _)%bool; [apply (uni_mode s); [exact H|exact H4|exact Hadd]|apply (uni_fail s); exact H].
  - (* MComment *) destruct (String.eqb tl "--"); [|apply (uni_mode s); [exact H|exact H4|exact I]].
    destruct (Ascii.eqb c ">") eqn:Hc; [|apply (uni_fail s); exact H]. destruct (Heq _ Hc eq_refl) as [-> ->]. apply (uni_mode []); [exact H|cbn [uraw]; rewrite H4; reflexivity|exact I].
  - (* MCData *) specialize (Hadd acc H6). destruct (_ && _)%bool eqn:Hc; [|apply (uni_mode s); [exact H|exact H4|exact Hadd]].
    apply andb_true_iff in Hc. destruct Hc as [Hn Hc]. apply Nat.leb_le in Hn. apply (ends_with (add1 acc c) 3) in Hc; [|exact Hn].
    rewrite Hc in Hadd at 1. apply run_ends in Hadd; [|reflexivity|discriminate]. destruct Hadd as [Hd ->].
    unfold uni. cbn [p_out p_names p_nss p_mode p_raw p_buf uraw umode]. repeat (split; [assumption||reflexivity|]). split; [apply valid_app; [exact H5|exact Hd]|exact I].
  - (* MPI *) specialize (Hadd acc H6). destruct (Nat.leb 2 _ && _)%bool eqn:Hc; [|apply (uni_mode s); [exact H|exact H4|exact Hadd]].
    apply andb_true_iff in Hc. destruct Hc as [Hn Hc]. apply Nat.leb_le in Hn. apply (ends_with (add1 acc c) 2) in Hc; [|exact Hn].
    rewrite Hc in Hadd at 1. apply run_ends in Hadd; [|reflexivity|discriminate]. destruct Hadd as [_ ->].
    destruct (pi_kind (add1 acc c)) as [d|]; [destruct (_ && _)%bool; [apply (uni_mode s); [exact H|cbn [uraw]; rewrite H4; reflexivity|exact I]|apply (uni_fail s); exact H]|].
    unfold uni. cbn [p_out p_names p_nss p_mode p_raw p_buf uraw umode]. rewrite H4. split; [|repeat (split; [assumption||reflexivity|]); exact I].
    intros e He. apply in_app_or in He. destruct He as [He|[<-|[]]]; [auto|exact I].
  - (* MDoctype *) destruct (Ascii.eqb c ">") eqn:Hc; [|apply Hsame; [intros _; exact I|discriminate]]. destruct (Heq _ Hc eq_refl) as [-> ->]. apply (uni_mode []); [exact H|cbn [uraw]; rewrite H4; reflexivity|exact I].
  - (* MFail *) apply Hsame; [intros _; exact I|discriminate].
Qed.

Theorem parse_valid : forall s e, valid s -> In e (s_evs (parse_text s)) -> vevent e.
Proof.
  intros t e Ht He. unfold parse_text in He.
  assert (H : forall t s st s', proper s -> uni s st -> utf8_run s t = Some s' -> uni s' (prun st t)).
  { clear. induction t as [|c t IH]; intros s st s' Hp H Hr; [inversion Hr; subst; exact H|]. cbn [prun utf8_run] in *.
    destruct (utf8_step s c) as [s1|] eqn:Hs; [|discriminate]. apply (IH s1); [apply (proper_step s c); assumption| |exact Hr]. apply (uni_step s s1); assumption. }
  assert (H0 : uni [] p0).
  { unfold uni. cbn [p0 p_out p_names p_nss p_mode p_raw p_buf]. split; [intros e' [<-|[]]; exact I|]. do 2 (split; [intros ? []|]). repeat split. }
  pose proof (H t [] p0 [] proper_nil H0 Ht) as Hu. clear H H0. destruct (prun p0 t) as [m o sk nm ns rw bf nw se].
  destruct Hu as (Hu & _). cbn [p_out] in Hu. apply Hu. revert He. unfold pfinish. cbn [p_mode].
  destruct m; try exact (fun H => H). unfold end_raw. cbn [p_raw]. destruct (unesc rw); [|exact (fun H => H)].
  cbn [p_mode p_out p_stack p_names p_nss p_raw p_buf p_nonws p_seen pfail set_mode]. destruct sk; [|exact (fun H => H)].
  destruct (nw || str_nonws s)%bool; [exact (fun H => H)|]. destruct se; exact (fun H => H).
Qed.
