(** * The parser builds the tree a document denotes. *)
From Verif Require Import Str Xml XmlText Reader Schema De Macro SpecValue ReaderProofs PropertiesReader SpecTree SpecReader SpecText IndentProofs TextProofs AlikeTrees RoundNames SpecXml GrammarProofs.
Open Scope list_scope.

(** ** Declarations *)
Lemma declares_decl : forall k u p, declares k p -> ns_decl (k, u) = Some (p, u).
Proof.
  intros k u p [[-> ->]|[-> Hp]]; [reflexivity|]. reflexivity.
Qed.
Lemma declares_key : forall k k' p, declares k p -> declares k' p -> k = k'.
Proof. intros k k' p [[-> ->]|[-> Hp]] [[-> H]|[-> H]]; try reflexivity; congruence. Qed.
Lemma ncname_colon : forall l, ncname l -> split_colon l = None.
Proof.
  intros l H. pose proof (ncname_all l H) as Hc.
  assert (Hn : all_chars (fun c => negb (Ascii.eqb c ":")) l = true).
  { clear Hc. destruct l as [|c r]; [destruct H|]. destruct H as [H1 H2]. cbn [all_chars].
    assert (Hl : forall c, letter c -> negb (Ascii.eqb c ":") = true).
    { intros d Hd. destruct (Ascii.eqb_spec d ":") as [->|_]; [|reflexivity]. exfalso. unfold letter in Hd.
      change (nat_of_ascii ":") with 58 in Hd. cbv zeta in Hd. lia. }
    rewrite (Hl c H1). apply (every_all name_part); [|exact H2].
    intros d [Hd|[Hd|[->| ->]]]; [exact (Hl d Hd)| |reflexivity|reflexivity].
    destruct (Ascii.eqb_spec d ":") as [->|_]; [|reflexivity]. exfalso. change (nat_of_ascii ":") with 58 in Hd. lia. }
  clear -Hn. induction l as [|c l IH]; [reflexivity|]. cbn [all_chars] in Hn. apply andb_prop in Hn. destruct Hn as [H1 H2].
  cbn [split_colon]. destruct (Ascii.eqb c ":"); [discriminate H1|]. rewrite (IH H2). reflexivity.
Qed.
Lemma plain_decl : forall k v, ncname k -> k <> "xmlns" -> ns_decl (k, v) = None.
Proof.
  intros k v Hk Hn. unfold ns_decl. cbn [fst snd]. rewrite (qname_plain k (ncname_colon k Hk)). cbn [n_prefix n_local].
  destruct (String.eqb_spec k "xmlns") as [E|_]; [destruct (Hn E)|reflexivity].
Qed.
Lemma prefixed_decl : forall p k v, ncname p -> p <> "xmlns" -> ns_decl (p +++ ":" +++ k, v) = None.
Proof.
  intros p k v Hp Hn. unfold ns_decl. cbn [fst snd]. rewrite (qname_prefixed p k (ncname_colon p Hp)). cbn [n_prefix n_local].
  rewrite match_xmlns. destruct (String.eqb_spec p "xmlns") as [E|_]; [destruct (Hn E)|reflexivity].
Qed.

Lemma decls_sorted : forall ats, ns_sorted (decls_of ats).
Proof.
  induction ats as [|a ats IH]; [exact I|]. cbn [decls_of]. destruct (ns_decl a) as [[p u]|]; [apply ns_put_sorted; exact IH|exact IH].
Qed.
(** The declarations of a start tag whose attributes have names. *)
Definition proper_attrs (sc : scope) (ats : list (string * string)) : Prop := exists al, attr_names sc ats al.
Lemma decl_back : forall sc ats al k u p v, attr_names sc ats al -> In (k, u) ats -> ns_decl (k, u) = Some (p, v) -> declares k p /\ v = u.
Proof.
  intros sc ats al k u p v H. induction H as [|k' u' l al p' Hd Hl IH|k' v' l al Hk Hn Hl IH|p' k' u' v' l al Hp Hk Hn Hb Hl IH]; intros Hin He.
  - destruct Hin.
  - destruct Hin as [E|Hin]; [|exact (IH Hin He)]. injection E as -> ->. rewrite (declares_decl k u p' Hd) in He. injection He as <- <-.
    split; [exact Hd|reflexivity].
  - destruct Hin as [E|Hin]; [|exact (IH Hin He)]. injection E as -> ->. rewrite (plain_decl k u Hk Hn) in He. discriminate He.
  - destruct Hin as [E|Hin]; [|exact (IH Hin He)]. pose proof (prefixed_decl p' k' v' Hp Hn) as E2.
    rewrite E, He in E2. discriminate E2.
Qed.
Lemma decls_get : forall ats, NoDup (map fst ats) ->
  (forall k u p v, In (k, u) ats -> ns_decl (k, u) = Some (p, v) -> declares k p /\ v = u) ->
  forall p, match ns_get (decls_of ats) p with
            | Some u => exists k, In (k, u) ats /\ declares k p
            | None => forall k u, In (k, u) ats -> ~ declares k p
            end.
Proof.
  induction ats as [|[k u] ats IH]; intros Hn Hb p; [intros k u []|].
  cbn [map] in Hn. inversion Hn as [|? ? Hk Hn']; subst.
  assert (Hb' : forall k u p v, In (k, u) ats -> ns_decl (k, u) = Some (p, v) -> declares k p /\ v = u)
    by (intros k' u' p' v' Hi He; exact (Hb k' u' p' v' (or_intror Hi) He)).
  specialize (IH Hn' Hb'). cbn [decls_of]. destruct (ns_decl (k, u)) as [[q v]|] eqn:He.
  - destruct (Hb k u q v (or_introl eq_refl) He) as [Hd ->]. rewrite (ns_put_get _ q u p (decls_sorted ats)).
    destruct (String.eqb_spec q p) as [->|Hq].
    + specialize (IH p). destruct (ns_get (decls_of ats) p) as [u'|].
      * destruct IH as (k' & Hi & Hd'). exfalso. apply Hk. rewrite (declares_key k k' p Hd Hd').
        apply in_map with (f := fst) in Hi. exact Hi.
      * exists k. split; [left; reflexivity|exact Hd].
    + specialize (IH p). destruct (ns_get (decls_of ats) p) as [u'|].
      * destruct IH as (k' & Hi & Hd'). exists k'. split; [right; exact Hi|exact Hd'].
      * intros k' u' [E|Hi]; [|exact (IH k' u' Hi)]. injection E as <- <-. intros Hd'.
        apply Hq. pose proof (declares_decl k u q Hd) as E1. rewrite (declares_decl k u p Hd') in E1. congruence.
  - specialize (IH p). destruct (ns_get (decls_of ats) p) as [u'|].
    + destruct IH as (k' & Hi & Hd'). exists k'. split; [right; exact Hi|exact Hd'].
    + intros k' u' [E|Hi]; [|exact (IH k' u' Hi)]. injection E as <- <-. intros Hd'.
      rewrite (declares_decl k u p Hd') in He. discriminate He.
Qed.
Lemma same_value : forall (ats : list (string * string)) k u u', NoDup (map fst ats) -> In (k, u) ats -> In (k, u') ats -> u = u'.
Proof.
  induction ats as [|[a b] ats IH]; intros k u u' Hn H H'; [destruct H|]. destruct H as [E|Hi], H' as [E'|Hi']; cbn [map] in Hn; inversion Hn as [|? ? Hk Hn']; subst.
  - congruence.
  - injection E as -> ->. destruct Hk. apply in_map with (f := fst) in Hi'. exact Hi'.
  - injection E' as -> ->. destruct Hk. apply in_map with (f := fst) in Hi. exact Hi.
  - exact (IH k u u' Hn' Hi Hi').
Qed.
Lemma scope_get : forall sc sc' ats al nss, NoDup (map fst ats) -> attr_names sc' ats al -> opens_scope sc ats sc' ->
  (forall p, nss_get nss p = sc p) -> forall p, nss_get (decls_of ats :: nss) p = sc' p.
Proof.
  intros sc sc' ats al nss Hn Ha Ho Hs p. cbn [nss_get].
  pose proof (decls_get ats Hn (fun k u p v Hi He => decl_back sc' ats al k u p v Ha Hi He) p) as Hg.
  destruct (ns_get (decls_of ats) p) as [u|].
  - destruct Hg as (k & Hi & Hd). destruct (Ho p) as [(k' & u' & Hi' & Hd' & E)|[Hx _]]; [|destruct (Hx k u Hi Hd)].
    rewrite E. f_equal. rewrite (declares_key k' k p Hd' Hd) in Hi'. exact (same_value ats k u u' Hn Hi Hi').
  - destruct (Ho p) as [(k' & u' & Hi' & Hd' & E)|[_ E]]; [destruct (Hg k' u' Hi' Hd')|]. rewrite E. apply Hs.
Qed.

(** ** Names *)
Lemma lookup_bound : forall nss sc p u, (forall p, nss_get nss p = sc p) -> bound_to sc p u -> lookup_prefix nss p = Some u.
Proof.
  intros nss sc p u Hs Hb. unfold lookup_prefix, bound_to in *. destruct (String.eqb p "xml"); [rewrite Hb; reflexivity|].
  rewrite Hs. exact Hb.
Qed.
Lemma resolve_elem_name : forall nss sc q n, (forall p, nss_get nss p = sc p) -> elem_name sc q n -> resolve_elem nss q = Some n.
Proof.
  intros nss sc q n Hs H. unfold resolve_elem. destruct H as [p l u Hp Hl Hb|l u Hl Hu Hne|l Hl Hu].
  - rewrite (qname_prefixed p l (ncname_colon p Hp)). cbn [n_prefix n_local]. rewrite (lookup_bound nss sc p u Hs Hb). reflexivity.
  - rewrite (qname_plain l (ncname_colon l Hl)). cbn [n_prefix n_local]. rewrite Hs, Hu.
    destruct (String.eqb_spec u "") as [E|_]; [destruct (Hne E)|reflexivity].
  - rewrite (qname_plain l (ncname_colon l Hl)). cbn [n_prefix n_local]. rewrite Hs. destruct Hu as [->| ->]; reflexivity.
Qed.
Lemma resolve_attr_names : forall nss sc ats al, (forall p, nss_get nss p = sc p) -> attr_names sc ats al ->
  resolve_attrs nss ats = Some al.
Proof.
  intros nss sc ats al Hs H. induction H as [|k u l al p Hd Hl IH|k v l al Hk Hn Hl IH|p k u v l al Hp Hk Hn Hb Hl IH]; cbn [resolve_attrs].
  - reflexivity.
  - rewrite (declares_decl k u p Hd). exact IH.
  - rewrite (plain_decl k v Hk Hn), IH. unfold resolve_attr_name. cbn [fst snd]. rewrite (qname_plain k (ncname_colon k Hk)). reflexivity.
  - rewrite (prefixed_decl p k v Hp Hn), IH. unfold resolve_attr_name. cbn [fst snd].
    rewrite (qname_prefixed p k (ncname_colon p Hp)). cbn [n_prefix n_local]. rewrite (lookup_bound nss sc p u Hs Hb). reflexivity.
Qed.
Lemma sorted_above : forall m, sorted m -> ns_sorted m.
Proof. induction m as [|[p u] m IH]; intros H; [exact I|]. destruct H as [H1 H2]. split; [exact H1|exact (IH H2)]. Qed.
Lemma get_in : forall m p u, ns_get m p = Some u -> In (p, u) m.
Proof.
  induction m as [|[q v] m IH]; intros p u H; [discriminate H|]. cbn [ns_get] in H. destruct (String.eqb_spec q p) as [->|_].
  - injection H as ->. left. reflexivity.
  - right. exact (IH p u H).
Qed.
Lemma sorted_same : forall m m', ns_sorted m -> ns_sorted m' -> (forall p, ns_get m p = ns_get m' p) -> m = m'.
Proof.
  induction m as [|[p u] m IH]; intros [|[p' u'] m'] H H' He.
  - reflexivity.
  - specialize (He p'). cbn [ns_get] in He. rewrite String.eqb_refl in He. discriminate He.
  - specialize (He p). cbn [ns_get] in He. rewrite String.eqb_refl in He. discriminate He.
  - destruct H as [Ha Hs], H' as [Ha' Hs'].
    assert (Hlt : forall a, String.compare a a = Lt -> False) by (intros a E; rewrite compare_refl in E; discriminate E).
    assert (Hp : p = p').
    { destruct (String.eqb_spec p p') as [E|Hne]; [exact E|exfalso].
      pose proof (He p) as E1. pose proof (He p') as E2. cbn [ns_get] in E1, E2. rewrite String.eqb_refl in E1, E2.
      apply String.eqb_neq in Hne as Hb. rewrite Hb in E2. rewrite String.eqb_sym in Hb. rewrite Hb in E1.
      pose proof (Ha p' u' (get_in _ _ _ E2)) as C1. pose proof (Ha' p u (get_in _ _ _ (eq_sym E1))) as C2.
      exact (Hlt p (compare_trans _ _ _ C1 C2)). }
    subst p'. pose proof (He p) as E1. cbn [ns_get] in E1. rewrite String.eqb_refl in E1. injection E1 as ->. f_equal.
    apply IH; [exact Hs|exact Hs'|]. intros q. specialize (He q). cbn [ns_get] in He.
    destruct (String.eqb_spec p q) as [->|_]; [|exact He].
    destruct (ns_get m q) eqn:G; [destruct (Hlt q (Ha q s (get_in _ _ _ G)))|].
    destruct (ns_get m' q) eqn:G'; [destruct (Hlt q (Ha' q s (get_in _ _ _ G')))|]. reflexivity.
Qed.
Lemma lists_squash : forall nss sc m, (forall p, nss_get nss p = sc p) -> lists m sc -> squash nss = m.
Proof.
  intros nss sc m Hs [H1 H2]. apply sorted_same; [apply squash_sorted|apply sorted_above; exact H1|].
  intros p. rewrite squash_get, Hs, H2. reflexivity.
Qed.

(** Tags that the parser does not refuse. *)
Lemma ncname_full : forall l, ncname l -> is_empty l = false.
Proof. intros l H. apply ncname_named in H. destruct l; [destruct H as (? & ? & E & _); discriminate E|reflexivity]. Qed.
Lemma letters_ncname : ncname "xmlns".
Proof. split; [unfold letter; cbv zeta; right; left; split; apply Nat.leb_le; reflexivity|]. unfold every. repeat apply Forall_cons; try apply Forall_nil; left; unfold letter; cbv zeta; right; left; split; apply Nat.leb_le; reflexivity. Qed.
Lemma prefixed_good : forall p l, ncname p -> ncname l -> bad_qname (p +++ ":" +++ l) = false.
Proof.
  intros p l Hp Hl. pose proof (qname_prefixed p l (ncname_colon p Hp)) as E. unfold qname in E. unfold bad_qname.
  destruct (split_colon (p +++ ":" +++ l)) as [[a b]|]; [|reflexivity]. injection E as -> ->.
  rewrite (ncname_full p Hp), (ncname_full l Hl), (ncname_colon l Hl). reflexivity.
Qed.
Lemma plain_good : forall l, ncname l -> bad_qname l = false.
Proof. intros l Hl. unfold bad_qname. rewrite (ncname_colon l Hl). reflexivity. Qed.
Lemma declares_good : forall k u p, declares k p -> may_declare p u -> (bad_qname k || bad_decl (k, u))%bool = false.
Proof.
  intros k u p Hd (H1 & H2 & H3 & H4 & H5). apply orb_false_iff. split.
  - destruct Hd as [[-> ->]|[-> Hp]]; [reflexivity|]. destruct (H2 Hp) as [Hn _].
    exact (prefixed_good "xmlns" p ltac:(apply letters_ncname) Hn).
  - unfold bad_decl. rewrite (declares_decl k u p Hd). destruct (String.eqb_spec p "") as [E|Hp].
    + destruct (H5 E) as [A B]. cbn [existsb].
      assert (C : u <> xml_uri) by (intros ->; destruct H3 as [_ H3]; specialize (H3 eq_refl); subst p; discriminate).
      change xmlns_namespace with xmlns_uri in H4.
      apply String.eqb_neq in A, B, C, H4. rewrite A, B, C, H4. reflexivity.
    + destruct (H2 Hp) as [_ Hu]. apply String.eqb_neq in H1, Hu. rewrite H1, Hu. rewrite orb_false_r. cbn [orb].
      destruct (String.eqb_spec p "xml") as [E|_]; [|reflexivity]. apply H3 in E. rewrite E. reflexivity.
Qed.
Lemma attr_names_good : forall sc ats al, attr_names sc ats al -> (forall k u p, In (k, u) ats -> declares k p -> may_declare p u) ->
  existsb (fun a => bad_qname (fst a) || bad_decl a)%bool ats = false.
Proof.
  intros sc ats al H. induction H as [|k u l al p Hd Hl IH|k v l al Hk Hn Hl IH|p k u v l al Hp Hk Hn Hb Hl IH]; intros Hm; cbn [existsb fst].
  - reflexivity.
  - rewrite (declares_good k u p Hd (Hm k u p (or_introl eq_refl) Hd)). apply IH. intros k' u' p' Hi. apply Hm. right; exact Hi.
  - rewrite (plain_good k Hk). unfold bad_decl. rewrite (plain_decl k v Hk Hn). apply IH. intros k' u' p' Hi. apply Hm. right; exact Hi.
  - rewrite (prefixed_good p k Hp Hk). unfold bad_decl. rewrite (prefixed_decl p k v Hp Hn). apply IH. intros k' u' p' Hi. apply Hm. right; exact Hi.
Qed.
Lemma good_tag : forall sc q n ats al, NoDup (map fst ats) -> elem_name sc q n -> attr_names sc ats al ->
  (forall k u p, In (k, u) ats -> declares k p -> may_declare p u) -> bad_tag q ats = false.
Proof.
  intros sc q n ats al Hn He Ha Hm. unfold bad_tag. rewrite !orb_false_iff. split; [split|].
  - apply dup_names_none, plain_nodup, Hn.
  - destruct He as [p l u Hp Hl Hb|l u Hl Hu Hne|l Hl Hu]; [exact (prefixed_good p l Hp Hl)|exact (plain_good l Hl)|exact (plain_good l Hl)].
  - exact (attr_names_good sc ats al Ha Hm).
Qed.

(** ** Trees *)
Definition built (p p' : pst) (evs : list event) : Prop := calm p' /\ level p p' /\ p_out p' = p_out p ++ evs.
Lemma built_all : forall sc ks ns, Forall2 (denotes sc) ks ns ->
  Forall (fun t => forall sc n, denotes sc t n -> forall p, calm p -> (forall q, nss_get (p_nss p) q = sc q) -> built p (absorb t p) (flat n)) ks ->
  forall p, calm p -> (forall q, nss_get (p_nss p) q = sc q) -> built p (absorbs ks p) (flat_map flat ns).
Proof.
  intros sc ks ns H. induction H as [|k n ks ns Hk H IH]; intros Hf p Hp Hs.
  - cbn [absorbs flat_map]. split; [exact Hp|]. split; [repeat split|]. rewrite app_nil_r. reflexivity.
  - inversion Hf as [|? ? Hf1 Hf2]; subst. cbn [absorbs flat_map].
    destruct (Hf1 sc n Hk p Hp Hs) as (C & (L1 & L2 & L3) & O).
    destruct (IH Hf2 (absorb k p) C) as (C' & (L1' & L2' & L3') & O').
    { intros q. rewrite <- L3. apply Hs. }
    split; [exact C'|]. split; [repeat split; congruence|]. rewrite O', O, app_assoc. reflexivity.
Qed.
Lemma denotes_built : forall t sc n, denotes sc t n -> forall p, calm p -> (forall q, nss_get (p_nss p) q = sc q) ->
  built p (absorb t p) (flat n).
Proof.
  induction t as [s|q ats ks IH] using xnode_ind'; intros sc n H p Hp Hs.
  - inversion H; subst. cbn [absorb]. rewrite (unless_calm _ _ Hp). split; [exact Hp|]. split; [repeat split|reflexivity].
  - inversion H as [|? sc' ? ? ? nm al m ns Hn Hmay Ho He Ha Hl Hk]; subst.
    pose proof (scope_get sc sc' ats al (p_nss p) Hn Ha Ho Hs) as Hg.
    rewrite absorb_elem, (unless_calm _ _ Hp).
    assert (Hst : start_tag p q ats false =
              Pst MContent (p_out p ++ [EStart nm al m]) (q :: p_stack p) (nm :: p_names p) (decls_of ats :: p_nss p) "" "" false true).
    { unfold start_tag. rewrite (good_tag sc' q nm ats al Hn He Ha Hmay), (resolve_elem_name _ sc' q nm Hg He), (resolve_attr_names _ sc' ats al Hg Ha).
      rewrite (lists_squash _ sc' m Hg Hl). reflexivity. }
    rewrite Hst. set (p1 := Pst _ _ _ _ _ _ _ _ _).
    destruct (built_all sc' ks ns Hk IH p1) as (C & (L1 & L2 & L3) & O); [repeat split|exact Hg|].
    rewrite (unless_calm _ _ C). unfold end_tag. rewrite <- L1, <- L2, <- L3. cbn [p1 p_stack p_names p_nss]. rewrite String.eqb_refl.
    split; [repeat split|]. split; [repeat split|]. cbn [p_out]. rewrite O. cbn [p1 p_out flat]. rewrite <- !app_assoc. reflexivity.
Qed.
Lemma settled_seen : forall l, Forall (fun t => forall p, calm p -> p_seen p = true -> p_seen (absorb t p) = true) l ->
  forall p, calm p -> p_seen p = true -> p_seen (absorbs l p) = true.
Proof.
  intros l H. induction H as [|t l Ht Hl IH]; intros p Hp Hs; [exact Hs|]. cbn [absorbs].
  destruct (absorb_settled t p Hp) as [Hf|[Hc _]].
  - rewrite (failed_absorbs l _ Hf). exact (Ht p Hp Hs).
  - apply IH; [exact Hc|]. exact (Ht p Hp Hs).
Qed.
Lemma end_seen : forall p q, p_seen (end_tag p q) = p_seen p.
Proof.
  intros p q. unfold end_tag. destruct (p_stack p); [reflexivity|]. destruct (p_names p); [reflexivity|].
  destruct (p_nss p); [reflexivity|]. destruct (String.eqb _ _); reflexivity.
Qed.
Lemma start_seen : forall p q ats, calm (start_tag p q ats false) -> calm p -> p_seen (start_tag p q ats false) = true.
Proof.
  intros p q ats [H _] _. revert H. unfold start_tag. destruct (bad_tag q ats); [discriminate|].
  destruct (resolve_elem _ _); [|discriminate]. destruct (resolve_attrs _ _); [|discriminate]. reflexivity.
Qed.
Lemma absorb_keeps_seen : forall t p, calm p -> p_seen p = true -> p_seen (absorb t p) = true.
Proof.
  induction t as [s|q ats ks IH] using xnode_ind'; intros p Hp Hs.
  - cbn [absorb]. rewrite (unless_calm _ _ Hp). exact Hs.
  - rewrite absorb_elem, (unless_calm _ _ Hp).
    destruct (start_tag_cases p q ats) as [Hf|(Hc & _)].
    + rewrite (failed_absorbs _ _ Hf), (unless_fail _ _ Hf). unfold start_tag in *.
      destruct (bad_tag q ats); [exact Hs|]. destruct (resolve_elem _ _); [|exact Hs]. destruct (resolve_attrs _ _); [|exact Hs]. reflexivity.
    + pose proof (settled_seen ks IH _ Hc (start_seen p q ats Hc Hp)) as Hx.
      destruct (absorbs_ok ks _ Hc) as [Hf|[Hk _]]; [rewrite (unless_fail _ _ Hf); exact Hx|].
      rewrite (unless_calm _ _ Hk), end_seen. exact Hx.
Qed.
Lemma element_seen : forall q ats ks p, calm p -> calm (absorb (XElem q ats ks) p) -> p_seen (absorb (XElem q ats ks) p) = true.
Proof.
  intros q ats ks p Hp Hc. rewrite absorb_elem, (unless_calm _ _ Hp) in *.
  destruct (start_tag_cases p q ats) as [Hf|(Hc' & _)].
  { rewrite (failed_absorbs _ _ Hf), (unless_fail _ _ Hf) in Hc. destruct Hc as [E _], Hf as [m Hf]. rewrite E in Hf. discriminate Hf. }
  destruct (absorbs_ok ks _ Hc') as [Hf|[Hk _]].
  { rewrite (unless_fail _ _ Hf) in Hc. destruct Hc as [E _], Hf as [m Hf]. rewrite E in Hf. discriminate Hf. }
  rewrite (unless_calm _ _ Hk), end_seen.
  apply settled_seen; [apply Forall_forall; intros t _; apply absorb_keeps_seen|exact Hc'|exact (start_seen p q ats Hc' Hp)].
Qed.

Lemma tree_flat_strip : forall n, strip (flat n) = flat n.
Proof.
  fix IH 1. intros [nm a m ks|s]; [|reflexivity]. cbn [flat]. unfold strip. cbn [filter]. f_equal.
  change (filter _ (flat_map flat ks ++ [EEnd nm])) with (strip (flat_map flat ks ++ [EEnd nm])). rewrite strip_app. f_equal.
  induction ks as [|k ks IHk]; [reflexivity|]. cbn [flat_map]. rewrite strip_app, IH, IHk. reflexivity.
Qed.
Lemma document_tree : forall t s n, xml_document t s -> denotes no_scope t n ->
  s_fin (parse_text s) = FEnd /\ strip (s_evs (parse_text s)) = flat n.
Proof.
  intros t s n Hd Hn. destruct (document_run t s Hd) as [He Hf]. rewrite He, Hf.
  assert (Hx : exists q ats ks, t = XElem q ats ks).
  { destruct Hd as (d & m1 & y & e & m2 & _ & _ & _ & H & _). destruct H; eexists; eexists; eexists; reflexivity. }
  destruct Hx as (q & ats & ks & ->).
  destruct (denotes_built _ _ _ Hn p0) as (C & (L1 & L2 & L3) & O); [repeat split|reflexivity|].
  pose proof (element_seen q ats ks p0 ltac:(repeat split) C) as Hs.
  unfold pfinish, end_raw. destruct C as (A & B & D & F). rewrite A, B. change (unesc "") with (Some ""). rewrite F, <- L1, Hs.
  change (str_nonws "") with false. cbn [p0 p_stack orb]. split; [reflexivity|].
  cbn [s_evs]. rewrite O. cbn [p0 p_out]. rewrite strip_app, tree_flat_strip. reflexivity.
Qed.

Lemma spelling : forall x E fuel id t s s', xml_document t s -> xml_document t s' ->
  from_str x E fuel id s = from_str x E fuel id s'.
Proof.
  intros x E fuel id t s s' H H'. destruct (document_run t s H) as [A B], (document_run t s' H') as [A' B'].
  unfold from_str. destruct (parse_text s) as [ev fi], (parse_text s') as [ev' fi']. cbn [s_evs s_fin] in *.
  rewrite (C03_derived x E fuel id ev fi), (C03_derived x E fuel id ev' fi'). congruence.
Qed.
Lemma document_reads : forall x E id t s n o, xml_document t s -> denotes no_scope t n -> Reads x E id 0 n o ->
  exists N, forall fuel, N <= fuel -> from_str x E fuel id s = o.
Proof.
  intros x E id t s n o Hd Hn [N HN]. exists N. intros fuel Hf. destruct (document_tree t s n Hd Hn) as [_ Hs].
  unfold from_str, from_events. specialize (HN fuel Hf (s_evs (parse_text s)) [] (s_fin (parse_text s))).
  rewrite app_nil_r in HN. specialize (HN Hs). destruct (parse_text s) as [ev fi]. exact HN.
Qed.
