(** * Names and namespaces of written documents (C26 and the round trips). *)
From Verif Require Import Str Num Xml XmlText Reader Schema SpecTree SpecText SpecNum SpecTyped SpecStruct SpecSer SpecValue
  SpecEnc SpecRound TextProofs.
Open Scope list_scope.

(** ** Namespace maps *)
Lemma extend_sorted : forall l m, ns_sorted m -> ns_sorted (ns_extend m l).
Proof.
  unfold ns_extend. induction l as [|[a b] l IH]; intros m H; [exact H|]. cbn [fold_left fst snd]. apply IH, ns_put_sorted, H.
Qed.
Lemma sorted_get : forall m p u, ns_sorted m -> In (p, u) m -> ns_get m p = Some u.
Proof.
  induction m as [|[q v] m IH]; intros p u Hs Hin; [destruct Hin|]. destruct Hs as [Ha Hs]. cbn [ns_get].
  destruct Hin as [Hin|Hin]; [injection Hin as -> ->; rewrite String.eqb_refl; reflexivity|].
  destruct (String.eqb_spec q p) as [->|_]; [|apply IH; assumption].
  specialize (Ha p u Hin). rewrite compare_refl in Ha. discriminate.
Qed.

Lemma ns_get_in : forall m p u, ns_get m p = Some u -> In (p, u) m.
Proof.
  induction m as [|[q v] m IH]; intros p u H; [discriminate|]. cbn [ns_get] in H.
  destruct (String.eqb_spec q p) as [->|_]; [injection H as ->; left; reflexivity|right; apply IH; exact H].
Qed.
Lemma ns_in_get : forall m p u, In (p, u) m -> exists v, ns_get m p = Some v.
Proof.
  induction m as [|[q v] m IH]; intros p u H; [destruct H|]. cbn [ns_get].
  destruct (String.eqb_spec q p) as [->|Hn]; [eauto|]. destruct H as [H|H]; [congruence|eauto].
Qed.
Lemma ns_put_keeps : forall m p u q v, In (q, v) m -> In (q, v) (ns_put m p u).
Proof.
  induction m as [|[a b] m IH]; intros p u q v H; [destruct H|]. cbn [ns_put].
  destruct (String.compare p a); [exact H|right; exact H|]. destruct H as [H|H]; [left; exact H|right; auto].
Qed.
Lemma compare_eq : forall a b, String.compare a b = Eq -> a = b.
Proof.
  induction a as [|c a IH]; intros [|d b] H; cbn [String.compare] in H; try discriminate; [reflexivity|].
  destruct (Ascii.compare c d) eqn:Hc; try discriminate. apply ascii_compare_eq in Hc. rewrite Hc, (IH b H). reflexivity.
Qed.
Lemma ns_put_has : forall m p u, exists v, In (p, v) (ns_put m p u).
Proof.
  induction m as [|[a b] m IH]; intros p u; cbn [ns_put]; [exists u; left; reflexivity|].
  destruct (String.compare p a) eqn:Hc.
  - apply compare_eq in Hc. subst. exists b. left. reflexivity.
  - exists u. left. reflexivity.
  - destruct (IH p u) as [v Hv]. exists v. right. exact Hv.
Qed.
Lemma ns_extend_in : forall l m q v, In (q, v) (ns_extend m l) -> In (q, v) m \/ In (q, v) l.
Proof.
  induction l as [|[p u] l IH]; intros m q v H; [left; exact H|]. cbn [ns_extend fold_left fst snd] in H.
  apply (IH (ns_put m p u)) in H. destruct H as [H|H]; [|right; right; exact H].
  apply ns_put_in in H. destruct H as [H|H]; [right; left; symmetry; exact H|left; exact H].
Qed.
Lemma ns_extend_keeps : forall l m q v, In (q, v) m -> In (q, v) (ns_extend m l).
Proof.
  induction l as [|[p u] l IH]; intros m q v H; [exact H|]. cbn [ns_extend fold_left fst snd].
  apply (IH (ns_put m p u)). apply ns_put_keeps. exact H.
Qed.
Lemma ns_extend_has : forall l m q v, In (q, v) l -> exists w, In (q, w) (ns_extend m l).
Proof.
  induction l as [|[p u] l IH]; intros m q v H; [destruct H|]. cbn [ns_extend fold_left fst snd].
  destruct H as [H|H]; [|apply (IH (ns_put m p u) q v H)].
  injection H as -> ->. destruct (ns_put_has m q v) as [w Hw]. exists w. apply (ns_extend_keeps l (ns_put m q v)). exact Hw.
Qed.

Lemma declared_in : forall ra pu, In pu (declared ra) -> In pu (own_bindings ra).
Proof. intros ra [p u] H. apply ns_extend_in in H. destruct H as [[]|H]. exact H. Qed.

Lemma nss_get_cons : forall m st p u, nss_get (m :: st) p = Some u -> ns_get m p = Some u \/ nss_get st p = Some u.
Proof. intros m st p u H. cbn [nss_get] in H. destruct (ns_get m p); auto. Qed.

Lemma declare_in : forall st ns pu, In pu (declare st ns) -> In pu ns.
Proof.
  intros st ns pu. unfold declare.
  assert (H : forall l cur, In pu (fold_left
    (fun cur pu => if nss_has (cur :: st) (fst pu) (snd pu) then cur else ns_put cur (fst pu) (snd pu)) l cur) ->
    In pu cur \/ In pu l).
  { induction l as [|[p u] l IH]; intros cur Hc; [left; exact Hc|]. cbn [fold_left fst snd] in Hc.
    apply IH in Hc. destruct Hc as [Hc|Hc]; [|right; right; exact Hc].
    destruct (nss_has (cur :: st) p u); [left; exact Hc|]. destruct pu as [q v].
    apply ns_put_in in Hc. destruct Hc as [Hc|Hc]; [right; left; symmetry; exact Hc|left; exact Hc]. }
  intros Hin. apply H in Hin. destruct Hin as [[]|Hin]. exact Hin.
Qed.

Section Scopes.
  Variable B : nsmap.
  Hypothesis Hfun : forall p u u', In (p, u) B -> In (p, u') B -> u = u'.

  Definition agree (st : nsstack) : Prop := forall p u, nss_get st p = Some u -> In (p, u) B.
  (** Every scope of the stack only has bindings of [B]. *)
  Definition within (st : nsstack) : Prop := forall m p u, In m st -> In (p, u) m -> In (p, u) B.

  Lemma within_agree : forall st, within st -> agree st.
  Proof.
    induction st as [|m st IH]; intros H p u Hg; [discriminate|]. apply nss_get_cons in Hg. destruct Hg as [Hg|Hg].
    - apply ns_get_in in Hg. apply (H m p u (or_introl eq_refl) Hg).
    - apply IH; [|exact Hg]. intros m' p' u' Hm Hi. apply (H m' p' u' (or_intror Hm) Hi).
  Qed.

  Lemma within_in : forall st, within st -> forall p u, (exists m, In m st /\ In (p, u) m) -> nss_get st p = Some u.
  Proof.
    induction st as [|m st IH]; intros H p u (m' & Hm & Hi); [destruct Hm|]. cbn [nss_get].
    destruct (ns_get m p) as [v|] eqn:Hg.
    - apply ns_get_in in Hg. f_equal. apply (Hfun p); [apply (H m); [left; reflexivity|exact Hg]|apply (H m'); assumption].
    - destruct Hm as [<-|Hm].
      + apply ns_in_get in Hi. destruct Hi as [v Hv]. congruence.
      + apply IH; [|eauto]. intros m2 p2 u2 Hm2 Hi2. apply (H m2); [right; exact Hm2|exact Hi2].
  Qed.

  Lemma declare_within : forall st ns, within st -> (forall pu, In pu ns -> In pu B) -> within (declare st ns :: st).
  Proof.
    intros st ns Hs Hn m p u [<-|Hm] Hi; [|apply (Hs m); assumption]. apply Hn. apply declare_in in Hi. exact Hi.
  Qed.

  Lemma declare_scope : forall st ns p u, In (p, u) ns -> exists m w, In m (declare st ns :: st) /\ In (p, w) m /\
    (w = u \/ In (p, w) (declare st ns)).
  Proof.
    intros st ns p u. unfold declare.
    assert (Hk : forall l cur q v, In (q, v) cur -> In (q, v) (fold_left
      (fun cur pu => if nss_has (cur :: st) (fst pu) (snd pu) then cur else ns_put cur (fst pu) (snd pu)) l cur)).
    { induction l as [|[a b] l IH]; intros cur q v H; [exact H|]. cbn [fold_left fst snd]. apply IH.
      match goal with |- context [if ?c then _ else _] => destruct c end; [exact H|]. apply ns_put_keeps. exact H. }
    assert (H : forall l cur, In (p, u) l -> let d := fold_left
      (fun cur pu => if nss_has (cur :: st) (fst pu) (snd pu) then cur else ns_put cur (fst pu) (snd pu)) l cur in
      exists m w, In m (d :: st) /\ In (p, w) m /\ (w = u \/ In (p, w) d)).
    { induction l as [|[a b] l IH]; intros cur Hin; [destruct Hin|]. cbn [fold_left fst snd].
      destruct Hin as [Hin|Hin]; [|apply IH; exact Hin]. injection Hin as -> ->.
      match goal with |- context [if ?c then _ else _] => destruct c eqn:Hh end.
      - unfold nss_has in Hh. apply existsb_exists in Hh. destruct Hh as (m & Hm & He).
        destruct (ns_get m p) as [v|] eqn:Hg; [|discriminate]. apply String.eqb_eq in He. subst v. apply ns_get_in in Hg.
        destruct Hm as [<-|Hm].
        + exists (fold_left (fun cur pu => if nss_has (cur :: st) (fst pu) (snd pu) then cur else ns_put cur (fst pu) (snd pu)) l cur), u.
          split; [left; reflexivity|]. split; [|left; reflexivity]. apply Hk. exact Hg.
        + exists m, u. split; [right; exact Hm|]. auto.
      - destruct (ns_put_has cur p u) as [v Hv].
        exists (fold_left (fun cur pu => if nss_has (cur :: st) (fst pu) (snd pu) then cur else ns_put cur (fst pu) (snd pu)) l (ns_put cur p u)), v.
        split; [left; reflexivity|]. split; [apply Hk; exact Hv|right; apply Hk; exact Hv]. }
    intros Hin. apply (H ns [] Hin).
  Qed.

  Lemma declare_has : forall st ns p u, within st -> (forall pu, In pu ns -> In pu B) -> In (p, u) ns ->
    nss_get (declare st ns :: st) p = Some u.
  Proof.
    intros st ns p u Hs Hn Hin. pose proof (declare_within st ns Hs Hn) as Hw.
    destruct (declare_scope st ns p u Hin) as (m & w & Hm & Hi & _).
    rewrite (within_in _ Hw p w) by eauto. f_equal. apply (Hfun p); [apply (Hw m); assumption|apply Hn; exact Hin].
  Qed.
End Scopes.

(** ** Names *)
Lemma split_colon_none_app : forall a b, split_colon a = None ->
  split_colon (a +++ String ":" b) = Some (a, b).
Proof.
  induction a as [|c a IH]; intros b H; [reflexivity|]. cbn [split_colon String.append] in *.
  destruct (Ascii.eqb c ":"); [discriminate|]. destruct (split_colon a) as [[? ?]|]; [discriminate|].
  rewrite IH by reflexivity. reflexivity.
Qed.
Lemma qname_plain : forall l, split_colon l = None -> qname l = Name l None None.
Proof. intros l H. unfold qname. rewrite H. reflexivity. Qed.
Lemma qname_prefixed : forall p l, split_colon p = None -> qname (p +++ ":" +++ l) = Name l None (Some p).
Proof. intros p l H. unfold qname. cbn [String.append]. rewrite split_colon_none_app by exact H. reflexivity. Qed.

Lemma xml_name_all : forall s, xml_name s = true -> all_chars is_name_char s = true.
Proof. exact xml_name_chars. Qed.
Lemma good_plain : forall l, identifier l -> good_name (Name l None None).
Proof. intros l [H1 H2]. split; [repeat split; assumption|]. cbn [name_repr n_prefix n_local]. apply qname_plain. exact H2. Qed.
Lemma xml_name_prefixed : forall p l, xml_name p = true -> xml_name l = true -> xml_name (p +++ ":" +++ l) = true.
Proof.
  intros p l H1 H2. destruct p as [|c p]; [discriminate|]. cbn [String.append xml_name] in *.
  apply andb_true_iff in H1. destruct H1 as [H1 H3]. rewrite H1. cbn [andb].
  rewrite all_chars_app, H3. cbn [all_chars andb]. apply xml_name_all in H2. rewrite H2.
  change (is_name_char ":") with true. reflexivity.
Qed.
Lemma good_prefixed : forall p l, identifier p -> identifier l -> good_name (Name l None (Some p)).
Proof.
  intros p l [H1 H2] [H3 H4]. split; cbn [name_repr n_prefix n_local].
  - split; [apply xml_name_prefixed; assumption|repeat split; assumption].
  - apply qname_prefixed. exact H2.
Qed.

Lemma opt_eqb_eq : forall a b, opt_eqb a b = true <-> a = b.
Proof.
  intros [a|] [b|]; cbn; split; intros H; try discriminate; try reflexivity.
  - apply String.eqb_eq in H. congruence.
  - injection H as ->. apply String.eqb_refl.
Qed.

(** A written name [q] that means the label [l] wherever the bindings [st]
    are in scope. *)
Definition means (B : nsmap) (st : nsstack) (q : string) (l : string * string) : Prop :=
  good_name (qname q) /\ n_local (qname q) = snd l /\
  match n_prefix (qname q) with
  | Some p => p <> "xml" /\ nss_get st p = Some (fst l) /\ fst l <> ""
  | None => (nss_get st "" = Some (fst l) /\ fst l <> "") \/ (fst l = "" /\ forall u, ~ In ("", u) B)
  end.

Section Means.
  Variable B : nsmap.
  Hypothesis Hfun : forall p u u', In (p, u) B -> In (p, u') B -> u = u'.

  Lemma get_extend : forall m st p u, within B (m :: st) -> nss_get st p = Some u -> nss_get (m :: st) p = Some u.
  Proof.
    intros m st p u Hw Hg. cbn [nss_get]. destruct (ns_get m p) as [v|] eqn:Hm; [|exact Hg].
    f_equal. apply (Hfun p).
    - apply (Hw m p v (or_introl eq_refl)). apply ns_get_in. exact Hm.
    - assert (Hs : within B st) by (intros m' p' u' H1 H2; apply (Hw m'); [right; exact H1|exact H2]).
      apply (within_agree B st Hs). exact Hg.
  Qed.

  Lemma means_extend : forall m st q l, within B (m :: st) -> means B st q l -> means B (m :: st) q l.
  Proof.
    intros m st q l Hw (H1 & H2 & H3). split; [exact H1|]. split; [exact H2|].
    destruct (n_prefix (qname q)) as [p|].
    - destruct H3 as (H3 & H4 & H5). split; [exact H3|]. split; [|exact H5]. apply get_extend; assumption.
    - destruct H3 as [[H3 H4]|H3]; [left|right; exact H3]. split; [apply get_extend; assumption|exact H4].
  Qed.

  Lemma means_label : forall st q l, within B st -> means B st q l ->
    elabel (rname st (qname q)) = l /\ bound st (qname q) /\ n_ns (rname st (qname q)) <> Some "" /\
    (n_ns (rname st (qname q)) = None <-> fst l = "").
  Proof.
    intros st q [u t] Hw (H1 & H2 & H3). cbn [fst snd] in *. unfold rname, bound, elabel.
    assert (HP : forall s : string, s <> "" ->
      (Some s <> Some "") /\ ((Some s : option string) = None <-> s = "")) by (intros; split; [congruence|split; intros; congruence]).
    destruct (n_prefix (qname q)) as [p|].
    - destruct H3 as (Hx & Hg & Hn). unfold lookup_prefix. destruct (String.eqb_spec p "xml"); [congruence|].
      rewrite Hg. cbn [n_ns n_local]. rewrite H2. repeat split; try congruence; intros; congruence.
    - destruct H3 as [[Hg Hn]|[-> Hn]].
      + rewrite Hg. destruct (String.eqb_spec u ""); [congruence|]. cbn [n_ns n_local]. rewrite H2.
        repeat split; try congruence; intros; congruence.
      + assert (Hg : nss_get st "" = None).
        { destruct (nss_get st "") as [v|] eqn:Hv; [|reflexivity]. exfalso. apply (Hn v). apply (within_agree B st Hw). exact Hv. }
        rewrite Hg. cbn [n_ns n_local]. rewrite H2. repeat split; congruence.
  Qed.
End Means.

Definition holds (st : nsstack) (ra : yattr) : Prop :=
  forall p u, In (p, u) (own_bindings ra) -> nss_get st p = Some u.

Lemma own_in : forall ra p u, In (p, u) (ya_namespaces ra) ->
  In (if opt_eqb (ya_default_namespace ra) (Some p) then "" else p, u) (own_bindings ra).
Proof. intros ra p u H. unfold own_bindings. apply in_map_iff. exists (p, u). auto. Qed.

(** The name made from a prefix and a local name. *)
Lemma prefixed_means : forall E ra st pfx l, consistent E -> within (bindings E) st -> holds st ra ->
  (forall pu, In pu (own_bindings ra) -> In pu (bindings E)) ->
  identifier l -> prefix_fine E ra pfx ->
  means (bindings E) st (prefix_part (ya_default_namespace ra) pfx +++ l) (uri_of (ya_namespaces ra) pfx, l).
Proof.
  intros E ra st pfx l [Hf Hd] Hw Hh Ho Hl Hp. unfold prefix_part, means. cbn [fst snd].
  destruct pfx as [p|]; cbn [prefix_fine uri_of] in *.
  - destruct Hp as [Hi Hn]. destruct (ns_get (ya_namespaces ra) p) as [u|] eqn:Hg; [clear Hn|congruence].
    apply ns_get_in in Hg. apply own_in in Hg. pose proof (Hh _ _ Hg) as Hget.
    destruct (Hd _ _ (Ho _ Hg)) as [Hgd Hu].
    destruct (opt_eqb (ya_default_namespace ra) (Some p)) eqn:He.
    + cbn [String.append]. rewrite qname_plain by apply Hl. split; [apply good_plain; exact Hl|].
      split; [reflexivity|]. cbn [n_prefix]. left. split; assumption.
    + rewrite sapp_assoc, qname_prefixed by apply Hi.
      split; [apply good_prefixed; assumption|]. split; [reflexivity|]. cbn [n_prefix].
      split; [apply Hgd|]. split; assumption.
  - replace (if opt_eqb (ya_default_namespace ra) None then "" else "") with "" by (destruct (opt_eqb _ _); reflexivity).
    cbn [String.append]. rewrite qname_plain by apply Hl. split; [apply good_plain; exact Hl|].
    split; [reflexivity|]. cbn [n_prefix]. right. split; [reflexivity|]. exact Hp.
Qed.
