(** * The text layer: what is written is read back ([reread]). *)
From Verif Require Import Str Xml XmlText Reader Schema SpecTree SpecText TreeFacts.
From Coq Require Import NArith.
Open Scope list_scope.

Lemma sapp_assoc : forall a b c : string, ((a +++ b) +++ c) = (a +++ (b +++ c)).
Proof. induction a as [|ch a IH]; intros b c; [reflexivity|]. cbn [String.append]. rewrite IH. reflexivity. Qed.
Lemma sapp_nil : forall a : string, a +++ "" = a.
Proof. induction a as [|ch a IH]; [reflexivity|]. cbn [String.append]. rewrite IH. reflexivity. Qed.
Lemma sapp_cons : forall c (a b : string), String c a +++ b = String c (a +++ b).
Proof. reflexivity. Qed.

Lemma prun_app : forall a b st, prun st (a +++ b) = prun (prun st a) b.
Proof. induction a as [|c a IH]; intros b st; [reflexivity|]. cbn [String.append prun]. apply IH. Qed.

Lemma all_chars_app : forall p a b, all_chars p (a +++ b) = (all_chars p a && all_chars p b)%bool.
Proof.
  intros p a b; induction a as [|c a IH]; [reflexivity|].
  cbn [String.append all_chars]. rewrite IH, andb_assoc. reflexivity.
Qed.

(** ** Characters *)
Ltac by_char c := destruct c as [[] [] [] [] [] [] [] []]; vm_compute; try reflexivity; try discriminate; auto.

Lemma name_char_legal : forall c, is_name_char c = true -> illegal_char c = false.
Proof. intros c; by_char c. Qed.
Lemma name_start_char : forall c, is_name_start c = true -> is_name_char c = true.
Proof. intros c H. unfold is_name_start in H. rewrite !andb_true_iff in H. tauto. Qed.
Lemma name_char_ws : forall c, is_name_char c = true -> is_ws c = false.
Proof. intros c; by_char c. Qed.
Lemma name_char_sep : forall c, is_name_char c = true ->
  Ascii.eqb c ">" = false /\ Ascii.eqb c "/" = false /\ Ascii.eqb c "=" = false /\ Ascii.eqb c "!" = false
  /\ Ascii.eqb c "?" = false.
Proof. intros c; by_char c. Qed.
Lemma ws_legal : forall c, is_ws c = true -> illegal_char c = false.
Proof. intros c; by_char c. Qed.

(** ** Escaping *)
Definition raw_ok (s : string) : bool := all_chars (fun c => (negb (illegal_char c) && negb (Ascii.eqb c "<"))%bool) s.

Lemma esc_pcdata_raw : forall s, legal s = true -> raw_ok (esc_pcdata s) = true.
Proof.
  induction s as [|c s IH]; intros H; [reflexivity|].
  unfold legal in H. cbn [all_chars] in H. apply andb_true_iff in H. destruct H as [Hc Hs].
  cbn [esc_pcdata]. unfold raw_ok. rewrite all_chars_app. apply andb_true_iff. split; [|apply IH; exact Hs].
  revert Hc; by_char c.
Qed.

Lemma esc_nonws : forall s, str_nonws (esc_pcdata s) = str_nonws s.
Proof.
  unfold str_nonws. induction s as [|c s IH]; [reflexivity|].
  cbn [esc_pcdata all_chars]. rewrite all_chars_app, !negb_andb, IH. f_equal. by_char c.
Qed.

Lemma nonws_app : forall a b, str_nonws (a +++ b) = (str_nonws a || str_nonws b)%bool.
Proof. intros; unfold str_nonws. rewrite all_chars_app, negb_andb. reflexivity. Qed.

Lemma esc_pcdata_app : forall a b, esc_pcdata (a +++ b) = esc_pcdata a +++ esc_pcdata b.
Proof. induction a as [|c a IH]; intros b; [reflexivity|]. cbn [String.append esc_pcdata]. rewrite IH, sapp_assoc. reflexivity. Qed.

Lemma unesc_pcdata_char : forall c t r, unesc t = Some r ->
  unesc (esc_pcdata_char c +++ t) = Some (String c r).
Proof.
  intros c t r H. unfold unesc in *. unfold esc_pcdata_char.
  destruct (Ascii.eqb c "<") eqn:H1.
  { apply Ascii.eqb_eq in H1; subst. cbn. rewrite H. reflexivity. }
  destruct (Ascii.eqb c ">") eqn:H2.
  { apply Ascii.eqb_eq in H2; subst. cbn. rewrite H. reflexivity. }
  destruct (Ascii.eqb c "&") eqn:H3.
  { apply Ascii.eqb_eq in H3; subst. cbn. rewrite H. reflexivity. }
  cbn [String.append unesc_aux]. rewrite H3, H. reflexivity.
Qed.

Lemma unesc_pcdata : forall s, unesc (esc_pcdata s) = Some s.
Proof.
  induction s as [|c s IH]; [reflexivity|]. cbn [esc_pcdata].
  apply unesc_pcdata_char. exact IH.
Qed.

Lemma attr_norm_app : forall a b, attr_norm (a +++ b) = attr_norm a +++ attr_norm b.
Proof. induction a as [|c a IH]; intros b; [reflexivity|]. cbn [String.append attr_norm]. rewrite IH. reflexivity. Qed.

Lemma untab_none : forall s, all_chars (fun c => negb (Ascii.eqb c "009")) s = true -> untab s = s.
Proof.
  induction s as [|c s IH]; intros H; [reflexivity|]. cbn [all_chars untab] in *. apply andb_true_iff in H. destruct H as [Hc Hs].
  apply negb_true_iff in Hc. rewrite Hc, IH by exact Hs. reflexivity.
Qed.
Lemma untab_legal : forall s, legal_attr s = true -> untab s = s.
Proof. intros s H. apply untab_none. apply andb_true_iff in H. apply H. Qed.
Lemma unesc_attr : forall s, unesc (attr_norm (esc_attr s)) = Some (untab s).
Proof.
  induction s as [|c s IH]; [reflexivity|].
  cbn [esc_attr untab]. rewrite attr_norm_app. unfold unesc in *. revert IH.
  generalize (attr_norm (esc_attr s)) as t. intros t IH. unfold esc_attr_char.
  destruct (Ascii.eqb c "<") eqn:H1; [apply Ascii.eqb_eq in H1; subst; cbn; rewrite IH; reflexivity|].
  destruct (Ascii.eqb c ">") eqn:H2; [apply Ascii.eqb_eq in H2; subst; cbn; rewrite IH; reflexivity|].
  destruct (Ascii.eqb c """") eqn:H3; [apply Ascii.eqb_eq in H3; subst; cbn; rewrite IH; reflexivity|].
  destruct (Ascii.eqb c "'") eqn:H4; [apply Ascii.eqb_eq in H4; subst; cbn; rewrite IH; reflexivity|].
  destruct (Ascii.eqb c "&") eqn:H5; [apply Ascii.eqb_eq in H5; subst; cbn; rewrite IH; reflexivity|].
  destruct (Ascii.eqb c "010") eqn:H6; [apply Ascii.eqb_eq in H6; subst; cbn; rewrite IH; reflexivity|].
  destruct (Ascii.eqb c "013") eqn:H7; [apply Ascii.eqb_eq in H7; subst; cbn; rewrite IH; reflexivity|].
  cbn [attr_norm String.append].
  destruct (Ascii.eqb c "009") eqn:H9; [apply Ascii.eqb_eq in H9; subst; cbn; rewrite IH; reflexivity|].
  assert ((if is_ws c then " "%char else c) = c) as ->.
  { unfold is_ws. rewrite H6, H7, H9.
    destruct (Ascii.eqb c " ") eqn:H8; [apply Ascii.eqb_eq in H8; subst; reflexivity|reflexivity]. }
  cbn [unesc_aux]. rewrite H5, IH. reflexivity.
Qed.

Definition attr_raw (s : string) : bool :=
  all_chars (fun c => (negb (illegal_char c) && negb (Ascii.eqb c "<") && negb (Ascii.eqb c """"))%bool) s.

Lemma esc_attr_raw : forall s, legal s = true -> attr_raw (esc_attr s) = true.
Proof.
  induction s as [|c s IH]; intros H; [reflexivity|].
  unfold legal in H. cbn [all_chars] in H. apply andb_true_iff in H. destruct H as [Hc Hs].
  cbn [esc_attr]. unfold attr_raw. rewrite all_chars_app. apply andb_true_iff. split; [|apply IH; exact Hs].
  revert Hc; by_char c.
Qed.

(** ** Pieces of the parser *)
Lemma add1_app : forall a c r, add1 a c +++ r = a +++ String c r.
Proof. intros; unfold add1. rewrite sapp_assoc. reflexivity. Qed.

Section Parse.
  Variable out : list event.
  Variable stack : list string.
  Variable names : list name.
  Variable nss : nsstack.
  Variable seen : bool.
  Notation st m raw buf nw := (Pst m out stack names nss raw buf nw seen).

  Lemma p_raw_run : forall s raw buf nw, raw_ok s = true ->
    prun (st MContent raw buf nw) s = st MContent (raw +++ s) buf nw.
  Proof.
    induction s as [|c s IH]; intros raw buf nw H.
    - rewrite sapp_nil. reflexivity.
    - unfold raw_ok in H. cbn [all_chars] in H. rewrite !andb_true_iff, !negb_true_iff in H.
      destruct H as [[H1 H2] H3]. cbn [prun]. unfold pstep. rewrite H1. cbn [p_mode]. rewrite H2.
      cbn [p_out p_stack p_names p_nss p_raw p_buf p_nonws p_seen].
      rewrite IH by exact H3. rewrite add1_app. reflexivity.
  Qed.

  (** A run of name characters. *)
  Lemma p_start_name : forall s acc raw buf nw, all_chars is_name_char s = true ->
    prun (st (MStartName acc) raw buf nw) s = st (MStartName (acc +++ s)) raw buf nw.
  Proof.
    induction s as [|c s IH]; intros acc raw buf nw H.
    - rewrite sapp_nil. reflexivity.
    - cbn [all_chars] in H. apply andb_true_iff in H. destruct H as [H1 H2].
      cbn [prun]. unfold pstep. rewrite (name_char_legal _ H1). cbn [p_mode]. rewrite H1.
      unfold set_mode. cbn [p_out p_stack p_names p_nss p_raw p_buf p_nonws p_seen].
      rewrite IH by exact H2. rewrite add1_app. reflexivity.
  Qed.
  Lemma p_end_name : forall s acc raw buf nw, all_chars is_name_char s = true ->
    prun (st (MEndName acc) raw buf nw) s = st (MEndName (acc +++ s)) raw buf nw.
  Proof.
    induction s as [|c s IH]; intros acc raw buf nw H.
    - rewrite sapp_nil. reflexivity.
    - cbn [all_chars] in H. apply andb_true_iff in H. destruct H as [H1 H2].
      cbn [prun]. unfold pstep. rewrite (name_char_legal _ H1). cbn [p_mode]. rewrite H1.
      unfold set_mode. cbn [p_out p_stack p_names p_nss p_raw p_buf p_nonws p_seen].
      rewrite IH by exact H2. rewrite add1_app. reflexivity.
  Qed.
  Lemma p_attr_name : forall s q ats acc raw buf nw, all_chars is_name_char s = true ->
    prun (st (MAttrName q ats acc) raw buf nw) s = st (MAttrName q ats (acc +++ s)) raw buf nw.
  Proof.
    induction s as [|c s IH]; intros q ats acc raw buf nw H.
    - rewrite sapp_nil. reflexivity.
    - cbn [all_chars] in H. apply andb_true_iff in H. destruct H as [H1 H2].
      cbn [prun]. unfold pstep. rewrite (name_char_legal _ H1). cbn [p_mode]. rewrite H1.
      unfold set_mode. cbn [p_out p_stack p_names p_nss p_raw p_buf p_nonws p_seen].
      rewrite IH by exact H2. rewrite add1_app. reflexivity.
  Qed.
  Lemma p_attr_val : forall s q ats an acc raw buf nw, attr_raw s = true ->
    prun (st (MAttrVal q ats an """" acc) raw buf nw) s = st (MAttrVal q ats an """" (acc +++ s)) raw buf nw.
  Proof.
    induction s as [|c s IH]; intros q ats an acc raw buf nw H.
    - rewrite sapp_nil. reflexivity.
    - unfold attr_raw in H. cbn [all_chars] in H. rewrite !andb_true_iff, !negb_true_iff in H.
      destruct H as [[[H1 H2] H3] H4].
      cbn [prun]. unfold pstep. rewrite H1. cbn [p_mode]. rewrite H2, H3.
      unfold set_mode. cbn [p_out p_stack p_names p_nss p_raw p_buf p_nonws p_seen].
      rewrite IH by exact H4. rewrite add1_app. reflexivity.
  Qed.

  (** After the name and the attributes read so far. *)
  Definition tag_mode (q : string) (ats : list (string * string)) : pmode :=
    match ats with [] => MStartName q | _ => MAfterVal q ats end.

  Lemma p_attr : forall q ats k v, xml_name k = true -> legal v = true ->
    prun (st (tag_mode q ats) "" "" false) (show_attr (k, v)) = st (tag_mode q (ats ++ [(k, untab v)])) "" "" false.
  Proof.
    intros q ats k v Hk Hv. unfold show_attr. cbn [fst snd].
    destruct k as [|c k]; [discriminate|]. cbn [xml_name] in Hk. apply andb_true_iff in Hk. destruct Hk as [Hc Hk].
    change (" " +++ String c k +++ "=""" +++ esc_attr v +++ """")
      with (String " " (String c (k +++ String "=" (String """" (esc_attr v +++ """"))))).
    cbn [prun].
    assert (pstep (st (tag_mode q ats) "" "" false) " " = st (MAttrs q ats) "" "" false) as ->.
    { destruct ats; reflexivity. }
    assert (pstep (st (MAttrs q ats) "" "" false) c = st (MAttrName q ats (String c "")) "" "" false) as ->.
    { pose proof (name_start_char c Hc) as Hn. unfold pstep. rewrite (name_char_legal _ Hn). cbn [p_mode].
      rewrite (name_char_ws _ Hn). destruct (name_char_sep _ Hn) as (-> & -> & _). rewrite Hc. reflexivity. }
    rewrite prun_app, p_attr_name by exact Hk. cbn [prun].
    change (pstep (st (MAttrName q ats (String c "" +++ k)) "" "" false) "=")
      with (st (MAttrQuote q ats (String c k)) "" "" false).
    change (pstep (st (MAttrQuote q ats (String c k)) "" "" false) """")
      with (st (MAttrVal q ats (String c k) """" "") "" "" false).
    rewrite prun_app, p_attr_val by (apply esc_attr_raw; assumption).
    cbn [prun String.append]. unfold pstep. cbn [p_mode].
    change (illegal_char """") with false. cbv iota.
    change (Ascii.eqb """" """") with true. cbv iota.
    rewrite unesc_attr.
    unfold set_mode. cbn [p_out p_stack p_names p_nss p_raw p_buf p_nonws p_seen].
    destruct ats; reflexivity.
  Qed.

  Lemma p_attrs : forall l q ats,
    (forall p, In p l -> xml_name (fst p) = true /\ legal (snd p) = true) ->
    prun (st (tag_mode q ats) "" "" false) (String.concat "" (map show_attr l)) =
    st (tag_mode q (ats ++ map (fun p => (fst p, untab (snd p))) l)) "" "" false.
  Proof.
    induction l as [|[k v] l IH]; intros q ats H.
    - rewrite app_nil_r. reflexivity.
    - assert (Hc : String.concat "" (map show_attr ((k, v) :: l)) = show_attr (k, v) +++ String.concat "" (map show_attr l)).
      { cbn [map String.concat]. destruct (map show_attr l) eqn:Hm; [|reflexivity].
        cbn [String.concat]. rewrite sapp_nil. reflexivity. }
      rewrite Hc, prun_app. destruct (H (k, v) (or_introl eq_refl)) as [H1 H2].
      rewrite p_attr by assumption. rewrite IH by (intros; apply H; right; assumption).
      rewrite <- app_assoc. reflexivity.
  Qed.
End Parse.

(** ** Namespace maps: sorted by prefix *)
Lemma ascii_compare_trans : forall a b c,
  Ascii.compare a b = Lt -> Ascii.compare b c = Lt -> Ascii.compare a c = Lt.
Proof.
  unfold Ascii.compare. intros a b c H1 H2. rewrite N.compare_lt_iff in *. eapply N.lt_trans; eassumption.
Qed.
Lemma ascii_compare_eq : forall a b, Ascii.compare a b = Eq -> a = b.
Proof.
  unfold Ascii.compare. intros a b H. apply N.compare_eq_iff in H.
  rewrite <- (ascii_N_embedding a), <- (ascii_N_embedding b), H. reflexivity.
Qed.
Lemma ascii_compare_refl : forall a, Ascii.compare a a = Eq.
Proof. unfold Ascii.compare; intros; apply N.compare_refl. Qed.

Lemma compare_trans : forall a b c,
  String.compare a b = Lt -> String.compare b c = Lt -> String.compare a c = Lt.
Proof.
  induction a as [|x a IH]; intros [|y b] [|z c] H1 H2; cbn [String.compare] in *; try discriminate; try reflexivity.
  destruct (Ascii.compare x y) eqn:Hxy; try discriminate.
  - apply ascii_compare_eq in Hxy; subst.
    destruct (Ascii.compare y z) eqn:Hyz; try discriminate; [|reflexivity]. eapply IH; eassumption.
  - destruct (Ascii.compare y z) eqn:Hyz; try discriminate.
    + apply ascii_compare_eq in Hyz; subst. rewrite Hxy. reflexivity.
    + rewrite (ascii_compare_trans _ _ _ Hxy Hyz). reflexivity.
Qed.
Lemma compare_refl : forall a, String.compare a a = Eq.
Proof. induction a; cbn [String.compare]; [reflexivity|]. rewrite ascii_compare_refl. assumption. Qed.
Lemma compare_gt : forall a b, String.compare a b = Gt -> String.compare b a = Lt.
Proof.
  induction a as [|x a IH]; intros [|y b] H; cbn [String.compare] in *; try discriminate; try reflexivity.
  unfold Ascii.compare in *. rewrite N.compare_antisym.
  destruct (N.compare (N_of_ascii x) (N_of_ascii y)); try discriminate; cbn; auto.
Qed.


Lemma ns_put_in : forall m p u q v, In (q, v) (ns_put m p u) -> (q, v) = (p, u) \/ In (q, v) m.
Proof.
  induction m as [|[a b] m IH]; intros p u q v H; cbn [ns_put] in H.
  - destruct H as [H|[]]; auto.
  - destruct (String.compare p a).
    + right; exact H.
    + destruct H as [H|H]; auto.
    + destruct H as [H|H]; [right; left; exact H|]. apply IH in H. destruct H; [left|right; right]; assumption.
Qed.

Lemma ns_put_sorted : forall m p u, ns_sorted m -> ns_sorted (ns_put m p u).
Proof.
  induction m as [|[a b] m IH]; intros p u H; cbn [ns_put].
  - split; [intros ? ? []|exact I].
  - destruct H as [H1 H2]. destruct (String.compare p a) eqn:Hc.
    + split; assumption.
    + split; [|split; assumption]. intros q v [Hq|Hq].
      * inversion Hq; subst. assumption.
      * eapply compare_trans; [eassumption|]. eapply H1; eassumption.
    + split; [|apply IH; assumption]. intros q v Hq. apply ns_put_in in Hq.
      destruct Hq as [Hq|Hq]; [inversion Hq; subst; apply compare_gt; assumption|]. eapply H1; eassumption.
Qed.

Lemma ns_put_front : forall m p u, above p m -> ns_put m p u = (p, u) :: m.
Proof.
  intros [|[a b] m] p u H; [reflexivity|]. cbn [ns_put].
  rewrite (H a b (or_introl eq_refl)). reflexivity.
Qed.

Lemma declare_sorted : forall st ns, ns_sorted (declare st ns).
Proof.
  intros st ns. unfold declare.
  assert (H : forall l cur, ns_sorted cur -> ns_sorted (fold_left
    (fun cur pu => if nss_has (cur :: st) (fst pu) (snd pu) then cur else ns_put cur (fst pu) (snd pu)) l cur)).
  { induction l as [|pu l IH]; intros cur Hc; [exact Hc|]. cbn [fold_left]. apply IH.
    destruct (nss_has (cur :: st) (fst pu) (snd pu)); [exact Hc|]. apply ns_put_sorted; exact Hc. }
  apply H. exact I.
Qed.

(** ** Start tags *)
Definition nsattr (p : string * string) : string * string :=
  (if String.eqb (fst p) "" then "xmlns" else "xmlns:" +++ fst p, snd p).
Definition wrattr (a : attr) : string * string := (name_repr (at_name a), at_value a).
Definition rawattr (a : attr) : string * string := (name_repr (at_name a), untab (at_value a)).

Lemma concat_cons : forall a l, String.concat "" (a :: l) = a +++ String.concat "" l.
Proof. intros a [|b l]; cbn [String.concat]; [rewrite sapp_nil|]; reflexivity. Qed.

Lemma show_ns_attrs : forall d, (forall p, In p d -> good_decl p) ->
  show_ns d = String.concat "" (map show_attr (map nsattr d)).
Proof.
  unfold show_ns. induction d as [|p d IH]; intros H; [reflexivity|].
  cbn [map]. rewrite !concat_cons, IH by (intros; apply H; right; assumption). f_equal.
  destruct (H p (or_introl eq_refl)) as (_ & H1 & H2 & H3). unfold show_ns1, nsattr.
  destruct (String.eqb_spec (fst p) "xml"); [contradiction|].
  destruct (String.eqb_spec (fst p) "xmlns"); [contradiction|].
  destruct (String.eqb_spec (fst p) ""); [|reflexivity].
  destruct (String.eqb_spec (snd p) ""); [|reflexivity]. destruct H3 as [_ H3]; contradiction.
Qed.

Lemma show_attrs_raw : forall a, show_attrs a = String.concat "" (map show_attr (map wrattr a)).
Proof. intros; unfold show_attrs. rewrite map_map. reflexivity. Qed.

Lemma ns_decl_nsattr : forall p u, p <> "" -> ns_decl (nsattr (p, u)) = Some (p, u).
Proof.
  intros p u H. unfold nsattr. cbn [fst snd].
  destruct (String.eqb_spec p ""); [contradiction|]. reflexivity.
Qed.
Lemma ns_decl_nsattr0 : forall p, ns_decl (nsattr p) = Some p.
Proof.
  intros [p u]. destruct (String.eqb_spec p "") as [->|Hp]; [reflexivity|]. apply ns_decl_nsattr; assumption.
Qed.

Lemma match_xmlns : forall T (p : string) (a b : T),
  match p with "xmlns" => a | _ => b end = if String.eqb p "xmlns" then a else b.
Proof.
  intros T p a b.
  do 5 (destruct p as [|[[] [] [] [] [] [] [] []] p]; try reflexivity).
  destruct p; reflexivity.
Qed.

Lemma ns_decl_attr : forall nss a, good_attr nss a -> ns_decl (rawattr a) = None.
Proof.
  intros nss a (Hn & _ & _ & H1 & H2). unfold ns_decl, rawattr. cbn [fst snd].
  destruct Hn as [_ ->]. cbn [n_prefix n_local]. destruct (n_prefix (at_name a)) as [p|].
  - rewrite match_xmlns. destruct (String.eqb_spec p "xmlns"); [subst; congruence|reflexivity].
  - destruct (String.eqb_spec (n_local (at_name a)) "xmlns"); [exfalso; apply H2; auto|reflexivity].
Qed.

Lemma decls_attrs : forall nss a, (forall t, In t a -> good_attr nss t) -> decls_of (map rawattr a) = [].
Proof.
  intros nss a; induction a as [|t a IH]; intros H; [reflexivity|].
  cbn [map decls_of]. rewrite (ns_decl_attr nss) by (apply H; left; reflexivity).
  apply IH. intros; apply H; right; assumption.
Qed.

Lemma decls_of_written : forall nss a d, (forall t, In t a -> good_attr nss t) -> ns_sorted d ->
  decls_of (map nsattr d ++ map rawattr a) = d.
Proof.
  intros nss a d Ha; induction d as [|p d IH]; intros Hs.
  - apply (decls_attrs nss). exact Ha.
  - destruct p as [p u]. destruct Hs as [Hp Hd].
    change (map nsattr ((p, u) :: d) ++ map rawattr a) with (nsattr (p, u) :: map nsattr d ++ map rawattr a).
    cbn [decls_of].
    rewrite ns_decl_nsattr0, IH by exact Hd. apply ns_put_front. exact Hp.
Qed.

Lemma resolve_elem_written : forall nss n, good_name n -> bound nss n ->
  resolve_elem nss (name_repr n) = Some (rname nss n).
Proof.
  intros nss n [_ Hq] Hb. unfold resolve_elem, rname. rewrite Hq. cbn [n_prefix n_local].
  unfold bound in Hb. destruct (n_prefix n) as [p|].
  - destruct (lookup_prefix nss p); [reflexivity|contradiction].
  - destruct (nss_get nss ""); reflexivity.
Qed.

Lemma resolve_attrs_written : forall nss a d, (forall t, In t a -> good_attr nss t) ->
  resolve_attrs nss (map nsattr d ++ map rawattr a) = Some (map (rattr nss) a).
Proof.
  intros nss a d Ha. induction d as [|p d IH].
  2:{ change (map nsattr (p :: d) ++ map rawattr a) with (nsattr p :: map nsattr d ++ map rawattr a).
      cbn [resolve_attrs]. rewrite ns_decl_nsattr0. exact IH. }
  cbn [map app]. induction a as [|t a IH]; [reflexivity|].
  cbn [map resolve_attrs]. rewrite (ns_decl_attr nss) by (apply Ha; left; reflexivity).
  rewrite IH by (intros; apply Ha; right; assumption).
  destruct (Ha t (or_introl eq_refl)) as ([_ Hq] & Hb & _ & _ & _).
  unfold resolve_attr_name, rawattr, rattr. cbn [fst snd]. rewrite Hq. cbn [n_prefix n_local].
  unfold bound in Hb. destruct (n_prefix (at_name t)) as [p|]; [|reflexivity].
  destruct (lookup_prefix nss p); [reflexivity|contradiction].
Qed.

Lemma dup_names_none : forall l, NoDup (map fst l) -> dup_names l = false.
Proof.
  induction l as [|a l IH]; intros H; [reflexivity|].
  cbn [map] in H. inversion H as [|? ? Hn Hd]; subst. cbn [dup_names]. rewrite IH by exact Hd.
  rewrite orb_false_r. destruct (existsb _ l) eqn:He; [|reflexivity]. exfalso.
  apply existsb_exists in He. destruct He as (b & Hb & Heq). apply String.eqb_eq in Heq.
  apply Hn. rewrite Heq. apply in_map. exact Hb.
Qed.

Lemma sorted_nodup : forall d, ns_sorted d -> NoDup (map fst (map nsattr d)).
Proof.
  induction d as [|[p u] d IH]; intros H; [constructor|].
  destruct H as [H1 H2]. cbn [map]. constructor; [|apply IH; exact H2].
  rewrite map_map. intros Hin. apply in_map_iff in Hin. destruct Hin as ([q v] & Heq & Hq).
  assert (q = p).
  { pose proof (ns_decl_nsattr0 (q, v)) as E1. pose proof (ns_decl_nsattr0 (p, u)) as E2.
    unfold ns_decl in E1, E2. rewrite Heq in E1.
    destruct (n_prefix (qname (fst (nsattr (p, u))))) as [s|].
    - rewrite match_xmlns in E1, E2. destruct (String.eqb s "xmlns"); congruence.
    - destruct (String.eqb _ "xmlns"); congruence. }
  subst q. specialize (H1 p v Hq). rewrite compare_refl in H1. discriminate.
Qed.

Lemma written_nodup : forall nss a d, (forall t, In t a -> good_attr nss t) ->
  NoDup (map (fun t => name_repr (at_name t)) a) -> ns_sorted d ->
  NoDup (map fst (map nsattr d ++ map rawattr a)).
Proof.
  intros nss a d Ha Hd Hs. rewrite map_app.
  assert (Hsep : forall s, In s (map fst (map nsattr d)) -> In s (map fst (map rawattr a)) -> False).
  { intros s H1 H2. rewrite map_map in H1, H2. apply in_map_iff in H1, H2.
    destruct H1 as (p & <- & Hp), H2 as (t & Heq & Ht).
    pose proof (ns_decl_attr nss t (Ha t Ht)) as E1. pose proof (ns_decl_nsattr0 p) as E2.
    unfold ns_decl in E1, E2. rewrite Heq in E1.
    destruct (n_prefix (qname (fst (nsattr p)))) as [s|].
    - rewrite match_xmlns in E1, E2. destruct (String.eqb s "xmlns"); congruence.
    - destruct (String.eqb _ "xmlns"); congruence. }
  pose proof (sorted_nodup d Hs) as Hn1.
  assert (Hn2 : NoDup (map fst (map rawattr a))) by (rewrite map_map; exact Hd).
  revert Hn1 Hsep. generalize (map fst (map nsattr d)) as l1. intros l1; induction l1 as [|s l1 IH]; intros Hn1 Hsep; [exact Hn2|].
  inversion Hn1; subst. cbn [app]. constructor.
  - intros Hin. apply in_app_or in Hin. destruct Hin as [Hin|Hin]; [contradiction|].
    eapply Hsep; [left; reflexivity|exact Hin].
  - apply IH; [assumption|]. intros s' H3 H4. eapply Hsep; [right; eassumption|exact H4].
Qed.

Lemma good_qname : forall n, good_name n -> bad_qname (name_repr n) = false.
Proof.
  intros n ((_ & Hl & Hp) & Hq). unfold bad_qname. unfold qname in Hq.
  destruct (split_colon (name_repr n)) as [[p l]|]; [|reflexivity].
  injection Hq as El Ep. rewrite <- Ep in Hp. rewrite <- El in Hl. destruct Hp as [Hp _], Hl as [Hl ->].
  destruct p; [discriminate Hp|]. destruct l; [discriminate Hl|]. reflexivity.
Qed.
Lemma good_decl_tag : forall p, good_decl p -> (bad_qname (fst (nsattr p)) || bad_decl (nsattr p))%bool = false.
Proof.
  intros p Hg. apply orb_false_iff. split.
  - destruct Hg as (_ & _ & _ & H & _). unfold nsattr. cbn [fst].
    destruct (String.eqb_spec (fst p) "") as [_|Hn]; [reflexivity|].
    destruct H as [H|[H1 H2]]; [contradiction|]. unfold bad_qname. cbn. rewrite H2.
    destruct (fst p); [contradiction|]. reflexivity.
  - unfold bad_decl. rewrite ns_decl_nsattr0. destruct p as [p u]. destruct Hg as ((_ & Hr) & Hx & Hy & _ & Hu). cbn [fst snd] in *.
    destruct (String.eqb p "").
    + apply not_true_iff_false. intros He. apply existsb_exists in He. destruct He as (v & Hv & He).
      apply String.eqb_eq in He. subst v. exact (Hr Hv).
    + apply String.eqb_neq in Hx, Hy, Hu. rewrite Hx, Hy, Hu. reflexivity.
Qed.
Lemma good_attr_tag : forall nss t, good_attr nss t -> (bad_qname (fst (rawattr t)) || bad_decl (rawattr t))%bool = false.
Proof.
  intros nss t H. unfold bad_decl. rewrite (ns_decl_attr nss t H). unfold rawattr. cbn [fst].
  rewrite (good_qname _ (proj1 H)). reflexivity.
Qed.
Lemma plain_nodup : forall l, NoDup (map fst l) -> NoDup (map fst (plain_attrs l)).
Proof.
  induction l as [|a l IH]; intros H; [constructor|]. cbn [map] in H. inversion H as [|? ? Hn Hd]; subst.
  unfold plain_attrs. cbn [filter]. destruct (ns_decl a); [exact (IH Hd)|]. cbn [map]. constructor; [|exact (IH Hd)].
  intros Hin. apply Hn. apply in_map_iff in Hin. destruct Hin as (b & Hb & Hi). apply filter_In in Hi.
  rewrite <- Hb. apply in_map, Hi.
Qed.
Lemma written_tag : forall nss n a d, good_name n -> (forall t, In t a -> good_attr nss t) ->
  NoDup (map (fun t => name_repr (at_name t)) a) -> ns_sorted d -> (forall p, In p d -> good_decl p) ->
  bad_tag (name_repr n) (map nsattr d ++ map rawattr a) = false.
Proof.
  intros nss n a d Hn Ha Hd Hs Hg. unfold bad_tag. rewrite !orb_false_iff. split; [split|].
  - apply dup_names_none, plain_nodup. exact (written_nodup nss a d Ha Hd Hs).
  - exact (good_qname n Hn).
  - apply not_true_iff_false. intros He. apply existsb_exists in He. destruct He as (x & Hx & He).
    apply in_app_or in Hx. destruct Hx as [Hx|Hx]; apply in_map_iff in Hx; destruct Hx as (y & <- & Hy).
    + rewrite (good_decl_tag y (Hg y Hy)) in He. discriminate.
    + rewrite (good_attr_tag nss y (Ha y Hy)) in He. discriminate.
Qed.

Lemma nsattr_ok : forall p, good_decl p -> xml_name (fst (nsattr p)) = true /\ legal (snd (nsattr p)) = true.
Proof.
  intros p ((H1 & _) & _ & _ & H3 & _). unfold nsattr; cbn [fst snd]. split; [|apply andb_true_iff in H1; apply H1].
  destruct (String.eqb_spec (fst p) ""); [reflexivity|]. destruct H3 as [H3|[H3 _]]; [contradiction|].
  destruct (fst p) as [|c r]; [discriminate H3|]. cbn [xml_name] in H3. apply andb_true_iff in H3. destruct H3 as [H3 H4].
  change ("xmlns:" +++ String c r) with (String "x" ("mlns:" +++ String c r)). cbn [xml_name].
  rewrite all_chars_app. cbn [all_chars]. rewrite (name_start_char c H3), H4. reflexivity.
Qed.
Lemma wrattr_ok : forall nss a, good_attr nss a -> xml_name (fst (wrattr a)) = true /\ legal (snd (wrattr a)) = true.
Proof. intros nss a ([[H1 _] _] & _ & H3 & _). split; assumption. Qed.

Lemma concat_app : forall l1 l2, String.concat "" (l1 ++ l2) = String.concat "" l1 +++ String.concat "" l2.
Proof.
  induction l1 as [|a l1 IH]; intros l2; [reflexivity|].
  change ((a :: l1) ++ l2) with (a :: l1 ++ l2). rewrite !concat_cons, IH, sapp_assoc. reflexivity.
Qed.

(** Text pending before a tag. *)
Definition pend (out : list event) (buf : string) : list event := out ++ flat_map flat (text_node buf).

Lemma p_open_name : forall out stack names nss seen s0 b q,
  xml_name q = true -> (stack = [] -> str_nonws (b +++ s0) = false) ->
  prun (Pst MContent out stack names nss (esc_pcdata s0) b (str_nonws b) seen) ("<" +++ q) =
  Pst (MStartName q) (pend out (b +++ s0)) stack names nss "" "" false seen.
Proof.
  intros out stack names nss seen s0 b q Hq Hs. cbn [String.append prun].
  destruct q as [|c q]; [discriminate|]. cbn [xml_name] in Hq. apply andb_true_iff in Hq. destruct Hq as [Hc Hq].
  assert (pstep (Pst MContent out stack names nss (esc_pcdata s0) b (str_nonws b) seen) "<" =
          Pst MTagOpen out stack names nss "" (b +++ s0) (str_nonws (b +++ s0)) seen) as ->.
  { unfold pstep. change (illegal_char "<") with false. cbv iota. cbn [p_mode].
    change (Ascii.eqb "<" "<") with true. cbv iota. unfold end_raw.
    cbn [p_out p_stack p_names p_nss p_raw p_buf p_nonws p_seen].
    rewrite unesc_pcdata, nonws_app. reflexivity. }
  cbn [prun].
  assert (pstep (Pst MTagOpen out stack names nss "" (b +++ s0) (str_nonws (b +++ s0)) seen) c =
          Pst (MStartName (String c "")) (pend out (b +++ s0)) stack names nss "" "" false seen) as ->.
  { pose proof (name_start_char c Hc) as Hn. unfold pstep. rewrite (name_char_legal _ Hn). cbn [p_mode].
    destruct (name_char_sep _ Hn) as (_ & -> & _ & -> & ->). rewrite Hc. unfold flush.
    cbn [p_out p_stack p_names p_nss p_raw p_buf p_nonws p_seen]. unfold pend, text_node.
    destruct (str_nonws (b +++ s0)) eqn:Hw.
    - destruct stack; [specialize (Hs eq_refl); discriminate|]. reflexivity.
    - cbn [flat_map]. rewrite app_nil_r. reflexivity. }
  rewrite p_start_name by exact Hq. reflexivity.
Qed.

Lemma p_open_tag : forall out stack names nss seen s0 b n a m,
  good_name n -> (forall t, In t a -> good_attr (declare nss m :: nss) t) ->
  (forall p, In p (declare nss m) -> good_decl p) ->
  (stack = [] -> str_nonws (b +++ s0) = false) ->
  prun (Pst MContent out stack names nss (esc_pcdata s0) b (str_nonws b) seen)
       ("<" +++ name_repr n +++ show_ns (declare nss m) +++ show_attrs a) =
  Pst (tag_mode (name_repr n) (map nsattr (declare nss m) ++ map rawattr a))
      (pend out (b +++ s0)) stack names nss "" "" false seen.
Proof.
  intros out stack names nss seen s0 b n a m [[Hn _] Hq] Ha Hd Hs.
  replace ("<" +++ name_repr n +++ show_ns (declare nss m) +++ show_attrs a)
    with (("<" +++ name_repr n) +++ String.concat "" (map show_attr (map nsattr (declare nss m) ++ map wrattr a))).
  2:{ rewrite show_ns_attrs by exact Hd. rewrite show_attrs_raw, map_app, concat_app, sapp_assoc. reflexivity. }
  rewrite prun_app, p_open_name by assumption.
  change (MStartName (name_repr n)) with (tag_mode (name_repr n) []).
  rewrite p_attrs.
  { assert (map (fun p => (fst p, untab (snd p))) (map nsattr (declare nss m) ++ map wrattr a) =
      map nsattr (declare nss m) ++ map rawattr a) as ->; [|reflexivity].
    rewrite map_app, !map_map. f_equal. apply map_ext_in. intros p Hp. unfold nsattr. cbn [fst snd].
    rewrite untab_legal by (apply (Hd p Hp)). reflexivity. }
  intros p Hp. apply in_app_or in Hp.
  destruct Hp as [Hp|Hp]; apply in_map_iff in Hp; destruct Hp as (t & <- & Ht).
  - apply nsattr_ok, Hd, Ht.
  - eapply wrattr_ok, Ha, Ht.
Qed.

(** End of a start tag. *)
Lemma p_close_start : forall out stack names nss seen n a m,
  good_name n -> bound (declare nss m :: nss) n ->
  (forall t, In t a -> good_attr (declare nss m :: nss) t) ->
  NoDup (map (fun t => name_repr (at_name t)) a) ->
  (forall p, In p (declare nss m) -> good_decl p) ->
  prun (Pst (tag_mode (name_repr n) (map nsattr (declare nss m) ++ map rawattr a)) out stack names nss "" "" false seen) ">" =
  Pst MContent (out ++ [EStart (rname (declare nss m :: nss) n) (map (rattr (declare nss m :: nss)) a) (squash (declare nss m :: nss))])
      (name_repr n :: stack) (rname (declare nss m :: nss) n :: names) (declare nss m :: nss) "" "" false true.
Proof.
  intros out stack names nss seen n a m Hn Hb Ha Hd Hg.
  set (ats := map nsattr (declare nss m) ++ map rawattr a).
  assert (H : forall st, start_tag (Pst st out stack names nss "" "" false seen) (name_repr n) ats false =
    Pst MContent (out ++ [EStart (rname (declare nss m :: nss) n) (map (rattr (declare nss m :: nss)) a) (squash (declare nss m :: nss))])
      (name_repr n :: stack) (rname (declare nss m :: nss) n :: names) (declare nss m :: nss) "" "" false true).
  { intros st. unfold start_tag, ats.
    rewrite (written_tag (declare nss m :: nss)) by (auto using declare_sorted).
    cbn [p_out p_stack p_names p_nss p_raw p_buf p_nonws p_seen].
    rewrite (decls_of_written (declare nss m :: nss)) by (auto using declare_sorted).
    rewrite resolve_elem_written by assumption. rewrite resolve_attrs_written by assumption. reflexivity. }
  clearbody ats. destruct ats as [|at0 l]; exact (H _).
Qed.

Lemma p_close_empty : forall out stack names nss seen n a m,
  good_name n -> bound (declare nss m :: nss) n ->
  (forall t, In t a -> good_attr (declare nss m :: nss) t) ->
  NoDup (map (fun t => name_repr (at_name t)) a) ->
  (forall p, In p (declare nss m) -> good_decl p) ->
  prun (Pst (tag_mode (name_repr n) (map nsattr (declare nss m) ++ map rawattr a)) out stack names nss "" "" false seen) " />" =
  Pst MContent (out ++ [EStart (rname (declare nss m :: nss) n) (map (rattr (declare nss m :: nss)) a) (squash (declare nss m :: nss));
                        EEnd (rname (declare nss m :: nss) n)])
      stack names nss "" "" false true.
Proof.
  intros out stack names nss seen n a m Hn Hb Ha Hd Hg.
  set (ats := map nsattr (declare nss m) ++ map rawattr a).
  assert (H : forall st, start_tag (Pst st out stack names nss "" "" false seen) (name_repr n) ats true =
    Pst MContent (out ++ [EStart (rname (declare nss m :: nss) n) (map (rattr (declare nss m :: nss)) a) (squash (declare nss m :: nss));
                        EEnd (rname (declare nss m :: nss) n)])
      stack names nss "" "" false true).
  { intros st. unfold start_tag, ats.
    rewrite (written_tag (declare nss m :: nss)) by (auto using declare_sorted).
    cbn [p_out p_stack p_names p_nss p_raw p_buf p_nonws p_seen].
    rewrite (decls_of_written (declare nss m :: nss)) by (auto using declare_sorted).
    rewrite resolve_elem_written by assumption. rewrite resolve_attrs_written by assumption. reflexivity. }
  clearbody ats. destruct ats as [|at0 l]; exact (H _).
Qed.

(** End tag. *)
Lemma xml_name_chars : forall q, xml_name q = true -> all_chars is_name_char q = true.
Proof.
  intros [|c q] H; [discriminate|]. cbn [xml_name all_chars] in *. apply andb_true_iff in H.
  destruct H as [H1 ->]. rewrite (name_start_char _ H1). reflexivity.
Qed.

Lemma p_end_tag : forall out stack rn names sc nss seen s0 b q,
  xml_name q = true ->
  prun (Pst MContent out (q :: stack) (rn :: names) (sc :: nss) (esc_pcdata s0) b (str_nonws b) seen) ("</" +++ q +++ ">") =
  Pst MContent (pend out (b +++ s0) ++ [EEnd rn]) stack names nss "" "" false seen.
Proof.
  intros out stack rn names sc nss seen s0 b q Hq.
  change ("</" +++ q +++ ">") with (String "<" (String "/" (q +++ ">"))). cbn [prun].
  assert (pstep (pstep (Pst MContent out (q :: stack) (rn :: names) (sc :: nss) (esc_pcdata s0) b (str_nonws b) seen) "<") "/" =
          Pst (MEndName "") (pend out (b +++ s0)) (q :: stack) (rn :: names) (sc :: nss) "" "" false seen) as ->.
  { assert (pstep (Pst MContent out (q :: stack) (rn :: names) (sc :: nss) (esc_pcdata s0) b (str_nonws b) seen) "<" =
          Pst MTagOpen out (q :: stack) (rn :: names) (sc :: nss) "" (b +++ s0) (str_nonws (b +++ s0)) seen) as ->.
    { unfold pstep. change (illegal_char "<") with false. cbv iota. cbn [p_mode].
      change (Ascii.eqb "<" "<") with true. cbv iota. unfold end_raw.
      cbn [p_out p_stack p_names p_nss p_raw p_buf p_nonws p_seen].
      rewrite unesc_pcdata, nonws_app. reflexivity. }
    unfold pstep. change (illegal_char "/") with false. cbv iota. cbn [p_mode].
    change (Ascii.eqb "/" "/") with true. cbv iota. unfold flush.
    cbn [p_out p_stack p_names p_nss p_raw p_buf p_nonws p_seen]. unfold pend, text_node.
    destruct (str_nonws (b +++ s0)) eqn:Hw; [reflexivity|].
    cbn [flat_map]. rewrite app_nil_r. reflexivity. }
  rewrite prun_app, p_end_name by (apply xml_name_chars; exact Hq).
  cbn [prun String.append]. unfold pstep. change (illegal_char ">") with false. cbv iota. cbn [p_mode].
  change (is_name_char ">") with false. change (is_ws ">") with false. change (Ascii.eqb ">" ">") with true. cbv iota.
  unfold end_tag. cbn [p_out p_stack p_names p_nss p_raw p_buf p_nonws p_seen].
  rewrite String.eqb_refl. reflexivity.
Qed.

(** ** CDATA *)
Lemma snoc_or_empty : forall v : string, v = "" \/ exists u c, v = u +++ String c "".
Proof.
  induction v as [|c v IH]; [left; reflexivity|right].
  destruct IH as [->|(u & d & ->)]; [exists "", c|exists (String c u), d]; reflexivity.
Qed.
Lemma snoc_inj : forall a b c d, a +++ String c "" = b +++ String d "" -> a = b /\ c = d.
Proof.
  induction a as [|x a IH]; intros [|y b] c d H; cbn [String.append] in H.
  - inversion H; auto.
  - inversion H. destruct b; discriminate.
  - inversion H. destruct a; discriminate.
  - inversion H; subst. destruct (IH _ _ _ H2); subst; auto.
Qed.

Lemma prefix_app : forall t v, String.prefix t (t +++ v) = true.
Proof.
  induction t as [|c t IH]; intros v; [destruct v; reflexivity|].
  cbn [String.append String.prefix]. destruct (ascii_dec c c); [apply IH|contradiction].
Qed.
Lemma contains_app : forall u t v, t <> "" -> contains t (u +++ t +++ v) = true.
Proof.
  induction u as [|c u IH]; intros t v Ht.
  - cbn [String.append]. destruct t as [|a t]; [contradiction|].
    change (String a t +++ v) with (String a (t +++ v)). cbn [contains].
    apply orb_true_iff; left. exact (prefix_app (String a t) v).
  - cbn [String.append contains]. rewrite IH by exact Ht. apply orb_true_r.
Qed.
Lemma prefix_spec : forall t s, String.prefix t s = true -> exists v, s = t +++ v.
Proof.
  induction t as [|c t IH]; intros s H; [exists s; reflexivity|].
  destruct s as [|d s]; [discriminate|]. cbn [String.prefix] in H.
  destruct (ascii_dec c d); [|discriminate]. subst. destruct (IH s H) as [v ->]. exists v. reflexivity.
Qed.
Lemma contains_spec : forall t s, contains t s = true -> exists u v, s = u +++ t +++ v.
Proof.
  intros t s; induction s as [|c s IH]; intros H; cbn [contains] in H.
  - apply String.eqb_eq in H. subst. exists "", "". reflexivity.
  - apply orb_true_iff in H. destruct H as [H|H].
    + destruct (prefix_spec _ _ H) as [v ->]. exists "", v. reflexivity.
    + destruct (IH H) as (u & v & ->). exists (String c u), v. reflexivity.
Qed.

Lemma contains_snoc : forall s t c d, contains (t +++ String d "") s = false -> c <> d ->
  contains (t +++ String d "") (s +++ String c "") = false.
Proof.
  intros s t c d H Hcd. destruct (contains (t +++ String d "") (s +++ String c "")) eqn:Hc; [|reflexivity].
  exfalso. destruct (contains_spec _ _ Hc) as (u & v & Heq).
  destruct (snoc_or_empty v) as [->|(v' & e & ->)].
  - rewrite sapp_nil, <- sapp_assoc in Heq. apply snoc_inj in Heq. destruct Heq; congruence.
  - replace (u +++ (t +++ String d "") +++ v' +++ String e "") with ((u +++ (t +++ String d "") +++ v') +++ String e "") in Heq
      by (rewrite !sapp_assoc; reflexivity).
    apply snoc_inj in Heq. destruct Heq as [-> ->].
    rewrite contains_app in H; [discriminate|]. destruct t; discriminate.
Qed.
Lemma contains_less : forall s t v, contains t (s +++ v) = false -> contains t s = false.
Proof.
  intros s t v H. destruct (contains t s) eqn:Hc; [|reflexivity].
  destruct t as [|a t].
  - exfalso. clear Hc. destruct (s +++ v) eqn:E; cbn in H; discriminate.
  - destruct (contains_spec _ _ Hc) as (u & w & ->).
    rewrite !sapp_assoc in H. rewrite contains_app in H; [discriminate|discriminate].
Qed.

Lemma sub_split : forall a k, k <= String.length a ->
  a = substring 0 k a +++ substring k (String.length a - k) a.
Proof.
  induction a as [|c a IH]; intros k H; cbn [String.length] in *.
  - destruct k; [reflexivity|lia].
  - destruct k as [|k].
    + cbn [substring String.length Nat.sub String.append]. f_equal.
      specialize (IH 0 (Nat.le_0_l _)). rewrite Nat.sub_0_r in IH. destruct a; exact IH.
    + cbn [substring Nat.sub String.append]. f_equal. apply IH. lia.
Qed.
Lemma length_app : forall a b, String.length (a +++ b) = String.length a + String.length b.
Proof. induction a; intros; cbn [String.append String.length]; [reflexivity|]. rewrite IHa. reflexivity. Qed.
Lemma sub_front : forall a b, substring 0 (String.length a) (a +++ b) = a.
Proof.
  induction a as [|c a IH]; intros b; [destruct b; reflexivity|].
  cbn [String.append String.length substring]. rewrite IH. reflexivity.
Qed.
Lemma sub_back : forall a b, substring (String.length a) (String.length b) (a +++ b) = b.
Proof.
  induction a as [|c a IH]; intros b; [|exact (IH b)].
  cbn [String.append String.length]. induction b as [|d b IHb]; [reflexivity|].
  cbn [String.length substring]. rewrite IHb. reflexivity.
Qed.

Lemma p_cdata_run : forall s out stack names nss seen buf nw acc,
  legal s = true -> contains "]]>" (acc +++ s) = false ->
  prun (Pst (MCData acc) out stack names nss "" buf nw seen) s =
  Pst (MCData (acc +++ s)) out stack names nss "" buf nw seen.
Proof.
  induction s as [|c s IH]; intros out stack names nss seen buf nw acc Hl Hc.
  - rewrite sapp_nil. reflexivity.
  - unfold legal in Hl. cbn [all_chars] in Hl. apply andb_true_iff in Hl. destruct Hl as [H1 H2].
    apply negb_true_iff in H1. cbn [prun]. unfold pstep. rewrite H1. cbn [p_mode].
    replace (acc +++ String c s) with (add1 acc c +++ s) in Hc by (rewrite add1_app; reflexivity).
    pose proof (contains_less _ _ _ Hc) as Hc'.
    assert ((Nat.leb 3 (String.length (add1 acc c)) &&
      String.eqb (substring (String.length (add1 acc c) - 3) 3 (add1 acc c)) "]]>")%bool = false) as ->.
    { destruct (_ && _)%bool eqn:Hb; [|reflexivity]. exfalso.
      apply andb_true_iff in Hb. destruct Hb as [Hb1 Hb2]. apply Nat.leb_le in Hb1. apply String.eqb_eq in Hb2.
      pose proof (sub_split (add1 acc c) (String.length (add1 acc c) - 3) ltac:(lia)) as Hsp.
      replace (String.length (add1 acc c) - (String.length (add1 acc c) - 3)) with 3 in Hsp by lia.
      rewrite Hb2 in Hsp. rewrite Hsp in Hc'.
      rewrite <- (sapp_nil "]]>") in Hc' at 2. rewrite contains_app in Hc'; [discriminate|discriminate]. }
    unfold set_mode. cbn [p_out p_stack p_names p_nss p_raw p_buf p_nonws p_seen].
    rewrite IH by assumption. rewrite add1_app. reflexivity.
Qed.

Lemma p_cdata : forall s q out stack names nss seen s0 b,
  legal s = true -> contains "]]>" s = false ->
  prun (Pst MContent out (q :: stack) names nss (esc_pcdata s0) b (str_nonws b) seen) ("<![CDATA[" +++ s +++ "]]>") =
  Pst MContent out (q :: stack) names nss "" ((b +++ s0) +++ s) (str_nonws ((b +++ s0) +++ s)) seen.
Proof.
  intros s q out stack names nss seen s0 b Hl Hc.
  change ("<![CDATA[" +++ s +++ "]]>") with (String "<" ("![CDATA[" +++ s +++ "]]>")). cbn [prun].
  assert (pstep (Pst MContent out (q :: stack) names nss (esc_pcdata s0) b (str_nonws b) seen) "<" =
          Pst MTagOpen out (q :: stack) names nss "" (b +++ s0) (str_nonws (b +++ s0)) seen) as ->.
  { unfold pstep. change (illegal_char "<") with false. cbv iota. cbn [p_mode].
    change (Ascii.eqb "<" "<") with true. cbv iota. unfold end_raw.
    cbn [p_out p_stack p_names p_nss p_raw p_buf p_nonws p_seen].
    rewrite unesc_pcdata, nonws_app. reflexivity. }
  rewrite prun_app.
  change (prun (Pst MTagOpen out (q :: stack) names nss "" (b +++ s0) (str_nonws (b +++ s0)) seen) "![CDATA[")
    with (Pst (MCData "") out (q :: stack) names nss "" (b +++ s0) (str_nonws (b +++ s0)) seen).
  assert (H1 : contains "]]>" (s +++ "]") = false) by (exact (contains_snoc s "]]" "]" ">" Hc ltac:(discriminate))).
  assert (H2 : contains "]]>" ((s +++ "]") +++ "]") = false) by (exact (contains_snoc (s +++ "]") "]]" "]" ">" H1 ltac:(discriminate))).
  replace (s +++ "]]>") with (((s +++ "]") +++ "]") +++ ">") by (rewrite !sapp_assoc; reflexivity).
  rewrite prun_app, p_cdata_run.
  2:{ unfold legal in *. rewrite !all_chars_app, Hl. reflexivity. }
  2:{ exact H2. }
  cbn [prun String.append]. unfold pstep. change (illegal_char ">") with false. cbv iota. cbn [p_mode].
  replace (add1 ((s +++ "]") +++ "]") ">") with (s +++ "]]>") by (unfold add1; rewrite !sapp_assoc; reflexivity).
  rewrite length_app. change (String.length "]]>") with 3.
  replace (String.length s + 3 - 3) with (String.length s) by lia.
  pose proof (sub_back s "]]>") as Hb. change (String.length "]]>") with 3 in Hb. rewrite Hb, sub_front.
  change (String.eqb "]]>" "]]>") with true.
  replace (Nat.leb 3 (String.length s + 3)) with true by (symmetry; apply Nat.leb_le; lia).
  cbn [andb p_out p_stack p_names p_nss p_raw p_buf p_nonws p_seen].
  rewrite (nonws_app (b +++ s0)). reflexivity.
Qed.

(** ** Trees *)
Lemma wnode_ind' : forall P : wnode -> Prop,
  (forall s, P (WTxt s)) -> (forall s, P (WCd s)) ->
  (forall n a m ks, (forall k, In k ks -> P k) -> P (WElem n a m ks)) ->
  forall w, P w.
Proof.
  intros P Ht Hc He. fix IH 1. intros [n a m ks|s|s]; [|apply Ht|apply Hc].
  apply He. induction ks as [|k ks IHk]; intros k' Hin; [destruct Hin|].
  destruct Hin as [<-|Hin]; [apply IH|apply IHk; assumption].
Qed.

Lemma reread_elem : forall nss n a m ks,
  reread nss (WElem n a m ks) =
  Elem (rname (declare nss m :: nss) n) (map (rattr (declare nss m :: nss)) a) (squash (declare nss m :: nss))
       (reread_kids (declare nss m :: nss) ks "").
Proof.
  intros. cbn [reread]. f_equal.
  enough (H : forall buf, (fix go (l : list wnode) (buf : string) {struct l} : list node :=
    match l with
    | [] => text_node buf
    | (WElem _ _ _ _ as k) :: r => text_node buf ++ reread (declare nss m :: nss) k :: go r ""
    | (WTxt s | WCd s) :: r => go r (buf +++ s)
    end) ks buf = reread_kids (declare nss m :: nss) ks buf) by apply H.
  induction ks as [|k ks IH]; intros buf; [reflexivity|].
  destruct k; cbn [reread_kids]; rewrite <- IH; reflexivity.
Qed.

Section Emit.
  Variable c : econf.
  Hypothesis Hindent : match ec_indent c with Some ind => all_chars is_ws ind = true | None => True end.

  Lemma repeat_ws : forall k s, all_chars is_ws s = true -> all_chars is_ws (repeat_str k s) = true.
  Proof.
    induction k as [|k IH]; intros s H; [reflexivity|]. cbn [repeat_str].
    rewrite all_chars_app, H, IH by exact H. reflexivity.
  Qed.

  Lemma indent_start_ws : forall st, all_chars is_ws (indent_before_start c st) = true /\
    (snd (top_flags (em_flags st)) = true -> indent_before_start c st = "").
  Proof.
    intros st. unfold indent_before_start. destruct (ec_indent c) as [ind|]; [|auto].
    destruct (top_flags (em_flags st)) as [mk tx]. cbn [snd]. split.
    - destruct (_ && _)%bool; [|reflexivity].
      rewrite all_chars_app, repeat_ws by exact Hindent. reflexivity.
    - intros ->. reflexivity.
  Qed.
  Lemma indent_end_ws : forall st, all_chars is_ws (indent_before_end c st) = true /\
    (snd (top_flags (em_flags st)) = true -> indent_before_end c st = "").
  Proof.
    intros st. unfold indent_before_end. destruct (ec_indent c) as [ind|]; [|auto].
    destruct (top_flags (em_flags st)) as [mk tx]. cbn [snd]. split.
    - destruct (_ && _)%bool; [|reflexivity].
      rewrite all_chars_app, repeat_ws by exact Hindent. reflexivity.
    - intros ->. destruct mk; reflexivity.
  Qed.

  Lemma ws_esc : forall s, all_chars is_ws s = true -> esc_pcdata s = s /\ raw_ok s = true /\ str_nonws s = false.
  Proof.
    intros s H. unfold str_nonws. rewrite H. split; [|split; [|reflexivity]].
    - induction s as [|ch s IH]; [reflexivity|]. cbn [all_chars] in H. apply andb_true_iff in H.
      destruct H as [H1 H2]. cbn [esc_pcdata]. rewrite IH by exact H2.
      replace (esc_pcdata_char ch) with (String ch ""); [reflexivity|]. revert H1. by_char ch.
    - unfold raw_ok. induction s as [|ch s IH]; [reflexivity|]. cbn [all_chars] in *. apply andb_true_iff in H.
      destruct H as [H1 H2]. rewrite IH by exact H2. rewrite andb_true_r. revert H1. by_char ch.
  Qed.

  (** White space read where no text is pending changes nothing once a tag
      follows: it is kept as pending white space. *)
  Lemma p_ws : forall ws out stack names nss seen s0 b, all_chars is_ws ws = true ->
    (ws = "" \/ b +++ s0 = "") ->
    exists s1, prun (Pst MContent out stack names nss (esc_pcdata s0) b (str_nonws b) seen) ws =
      Pst MContent out stack names nss (esc_pcdata s1) b (str_nonws b) seen /\
      text_node (b +++ s1) = text_node (b +++ s0) /\ str_nonws (b +++ s1) = str_nonws (b +++ s0).
  Proof.
    intros ws out stack names nss seen s0 b Hw Hor. destruct (ws_esc ws Hw) as (He & Hr & Hn).
    exists (s0 +++ ws). rewrite p_raw_run by exact Hr. rewrite esc_pcdata_app, He.
    split; [reflexivity|]. rewrite <- sapp_assoc. destruct Hor as [->|Hb]; [rewrite sapp_nil; auto|].
    rewrite Hb. cbn [String.append]. unfold text_node. rewrite Hn. auto.
  Qed.

  Definition elem_parses (w : wnode) : Prop :=
    forall nss, Writable nss w -> is_elem w ->
    forall out stack pnames seen s0 b enames flags rest,
      (snd (top_flags flags) = false -> b +++ s0 = "") ->
      (stack = [] -> str_nonws (b +++ s0) = false) ->
      prun (Pst MContent out stack pnames nss (esc_pcdata s0) b (str_nonws b) seen)
           (emit_from c (Emst false enames nss flags) (wtree w ++ rest)) =
      prun (Pst MContent (pend out (b +++ s0) ++ flat (reread nss w)) stack pnames nss "" "" false true)
           (emit_from c (Emst false enames nss (set_markup flags)) rest).

  Lemma emit_cons : forall st e l, emit_from c st (e :: l) = fst (emit1 c st e) +++ emit_from c (snd (emit1 c st e)) l.
  Proof. intros. cbn [emit_from]. destruct (emit1 c st e). reflexivity. Qed.

  Lemma set_markup_tx : forall f, snd (top_flags (set_markup f)) = snd (top_flags f).
  Proof. intros [|[] f]; reflexivity. Qed.
  Lemma set_markup_twice : forall f, set_markup (set_markup f) = set_markup f.
  Proof. intros [|[] f]; reflexivity. Qed.

  Lemma kids_parse : forall ks, (forall k, In k ks -> elem_parses k) ->
    forall nss' nss sc, nss' = sc :: nss -> (forall k, In k ks -> Writable nss' k) ->
    forall out stack n rn pnames s0 b enames mk tx fl rest, xml_name (name_repr n) = true ->
      (tx = false -> b +++ s0 = "") ->
      prun (Pst MContent out (name_repr n :: stack) (rn :: pnames) nss' (esc_pcdata s0) b (str_nonws b) true)
           (emit_from c (Emst false (n :: enames) nss' ((mk, tx) :: fl)) (flat_map wtree ks ++ WEnd None :: rest)) =
      prun (Pst MContent (out ++ flat_map flat (reread_kids nss' ks (b +++ s0)) ++ [EEnd rn]) stack pnames nss "" "" false true)
           (emit_from c (Emst false enames nss (set_markup fl)) rest).
  Proof.
    induction ks as [|k ks IH]; intros HE nss' nss sc Hnss HW out stack n rn pnames s0 b enames mk tx fl rest Hn Htx.
    - cbn [flat_map app]. rewrite emit_cons. cbn [emit1 em_names em_just em_nss em_flags fst snd tl].
      subst nss'. cbn [tl].
      set (est := Emst false (n :: enames) (sc :: nss) ((mk, tx) :: fl)).
      destruct (indent_end_ws est) as [Hws Htx'].
      rewrite (prun_app (indent_before_end c est +++ "</" +++ name_repr n +++ ">")), (prun_app (indent_before_end c est)).
      destruct (p_ws (indent_before_end c est) out (name_repr n :: stack) (rn :: pnames) (sc :: nss) true s0 b Hws) as (s1 & -> & Ht & _).
      { destruct tx; [left; apply Htx'; reflexivity|right; auto]. }
      rewrite p_end_tag by exact Hn.
      unfold pend. rewrite Ht. cbn [reread_kids]. rewrite app_assoc. reflexivity.
    - assert (IH' : forall out stack n rn pnames s0 b enames mk tx fl rest, xml_name (name_repr n) = true ->
        (tx = false -> b +++ s0 = "") ->
        prun (Pst MContent out (name_repr n :: stack) (rn :: pnames) nss' (esc_pcdata s0) b (str_nonws b) true)
           (emit_from c (Emst false (n :: enames) nss' ((mk, tx) :: fl)) (flat_map wtree ks ++ WEnd None :: rest)) =
        prun (Pst MContent (out ++ flat_map flat (reread_kids nss' ks (b +++ s0)) ++ [EEnd rn]) stack pnames nss "" "" false true)
           (emit_from c (Emst false enames nss (set_markup fl)) rest)).
      { intros; eapply IH; eauto; intros; [apply HE|apply HW]; right; assumption. }
      assert (Hk : Writable nss' k) by (apply HW; left; reflexivity).
      assert (Hke : elem_parses k) by (apply HE; left; reflexivity).
      cbn [flat_map]. rewrite <- app_assoc. destruct k as [kn ka km kk|s|s].
      + rewrite (Hke nss' Hk I); [|exact Htx|discriminate].
        cbn [set_markup]. cbn [reread_kids].
        pose proof (IH' (pend out (b +++ s0) ++ flat (reread nss' (WElem kn ka km kk))) stack n rn pnames "" "" enames true tx fl rest Hn (fun _ => eq_refl)) as Hr.
        cbn [esc_pcdata String.append] in Hr. change (str_nonws "") with false in Hr. rewrite Hr.
        unfold pend. rewrite flat_map_app. cbn [flat_map]. rewrite <- !app_assoc. reflexivity.
      + inversion Hk; subst. cbn [wtree app]. rewrite emit_cons.
        cbn [emit1 em_names em_just em_nss em_flags fst snd String.append set_text_flag].
        rewrite prun_app, p_raw_run by (apply esc_pcdata_raw; assumption).
        rewrite <- esc_pcdata_app. rewrite IH' by (try exact Hn; discriminate).
        cbn [reread_kids]. rewrite <- sapp_assoc. reflexivity.
      + inversion Hk; subst. cbn [wtree app]. rewrite emit_cons.
        cbn [emit1 em_names em_just em_nss em_flags fst snd set_text_flag].
        change ("" +++ "<![CDATA[" +++ s +++ "]]>") with ("<![CDATA[" +++ s +++ "]]>").
        rewrite prun_app, p_cdata by assumption.
        pose proof (IH' out stack n rn pnames "" ((b +++ s0) +++ s) enames mk true fl rest Hn ltac:(discriminate)) as Hr.
        cbn [esc_pcdata] in Hr. rewrite Hr, sapp_nil. reflexivity.
  Qed.

  Lemma tree_parses : forall w, elem_parses w.
  Proof.
    induction w as [s|s|n a m ks IH] using wnode_ind'; intros nss HW He; [destruct He|destruct He|].
    intros out stack pnames seen s0 b enames flags rest Htx Hstack.
    inversion HW as [| |? ? ? ? ? Hn Hb Ha Hnd Hd Hks]; subst.
    rewrite reread_elem. cbn [flat].
    change (wtree (WElem n a m ks) ++ rest) with (WStart n a m :: (flat_map wtree ks ++ [WEnd None]) ++ rest).
    rewrite emit_cons. cbn [emit1 em_names em_just em_nss em_flags fst snd].
    set (est := Emst false enames nss flags). destruct (indent_start_ws est) as [Hws Htx'].
    rewrite <- app_assoc. cbn [app].
    match goal with |- context [prun _ (?pre +++ emit_from _ _ _)] =>
      replace pre with (indent_before_start c est +++ ("<" +++ name_repr n +++ show_ns (declare nss m) +++ show_attrs a))
        by (rewrite ?sapp_assoc; reflexivity) end.
    rewrite (prun_app (_ +++ _)), (prun_app (indent_before_start c est)).
    destruct (p_ws (indent_before_start c est) out stack pnames nss seen s0 b Hws) as (s1 & -> & Ht & Hs1).
    { destruct (snd (top_flags flags)) eqn:Hf; [left; apply Htx'; exact Hf|right; auto]. }
    rewrite p_open_tag by (auto; rewrite Hs1; auto).
    assert (Hpend : pend out (b +++ s1) = pend out (b +++ s0)) by (unfold pend; rewrite Ht; reflexivity).
    rewrite Hpend.
    destruct ks as [|k ks].
    - cbn [flat_map app]. rewrite emit_cons. cbn [emit1 em_names em_just em_nss em_flags fst snd tl].
      rewrite prun_app, p_close_empty by assumption.
      rewrite set_markup_twice. reflexivity.
    - assert (Hj : forall st, em_just st = true ->
          emit_from c st (flat_map wtree (k :: ks) ++ WEnd None :: rest) =
          ">" +++ emit_from c (Emst false (em_names st) (em_nss st) (em_flags st)) (flat_map wtree (k :: ks) ++ WEnd None :: rest)).
      { intros st Hst. destruct st as [j nn sn f]. cbn [em_just em_names em_nss em_flags] in *. subst j.
        cbn [flat_map]. destruct k as [kn ka km kk|s|s]; cbn [wtree app];
        rewrite !emit_cons; cbn [emit1 em_names em_just em_nss em_flags fst snd]; rewrite <- ?sapp_assoc; try reflexivity. }
      rewrite Hj by reflexivity. cbn [em_names em_nss em_flags].
      rewrite prun_app, p_close_start by assumption.
      pose proof (kids_parse (k :: ks) IH (declare nss m :: nss) nss (declare nss m) eq_refl Hks
        (pend out (b +++ s0) ++ [EStart (rname (declare nss m :: nss) n) (map (rattr (declare nss m :: nss)) a) (squash (declare nss m :: nss))])
        stack n (rname (declare nss m :: nss) n) pnames "" "" enames false false (set_markup flags) rest (proj1 (proj1 Hn)) (fun _ => eq_refl)) as Hk.
      cbn [esc_pcdata] in Hk. change (str_nonws "") with false in Hk. rewrite Hk.
      rewrite set_markup_twice. change ("" +++ "") with "". rewrite <- !app_assoc. reflexivity.
  Qed.

  Theorem text_round_trip : forall w, is_elem w -> Writable [] w ->
    parse_text (emit_text c (wtree w)) = Stream (EStartDoc :: flat (reread [] w)) FEnd.
  Proof.
    intros w He HW. unfold parse_text, emit_text.
    assert (Hne : wtree w <> []) by (destruct w; [discriminate|destruct He|destruct He]).
    destruct (wtree w) as [|e l] eqn:Hw; [contradiction|]. rewrite <- Hw. clear Hne Hw.
    rewrite prun_app.
    assert (prun p0 (if ec_decl c then xml_decl else "") = p0) as ->.
    { destruct (ec_decl c); reflexivity. }
    rewrite <- (app_nil_r (wtree w)).
    unfold em0, p0.
    pose proof (tree_parses w [] HW He [EStartDoc] [] [] false "" "" [] [(ec_decl c, false)] [] (fun _ => eq_refl) (fun _ => eq_refl)) as H.
    cbn [esc_pcdata] in H. change (str_nonws "") with false in H. rewrite H. reflexivity.
  Qed.
End Emit.
