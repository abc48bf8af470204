(** * Writing Unicode values gives Unicode texts (C72). *)
From Coq Require Import Lia.
From Verif Require Import Str Num Xml XmlText Reader Schema De Ser Checked SpecUtf8 SpecStruct SpecTree SpecText SpecEnc SerProofs EncProofs ContentProofs WordProofs Utf8Proofs Utf8Text Utf8De.
Open Scope list_scope.

Definition vnodes (ts : list wnode) : Prop := forall e, In e (flat_map wtree ts) -> vwevent e.
Lemma nodes_app : forall a b, vnodes a -> vnodes b -> vnodes (a ++ b).
Proof. intros a b Ha Hb e H. rewrite flat_map_app in H. apply in_app_or in H. destruct H; auto. Qed.
Lemma nodes_nil : vnodes [].
Proof. intros e []. Qed.
Lemma nodes_txt : forall t, valid t -> vnodes [WTxt t].
Proof. intros t H e [<-|[]]. exact H. Qed.
Lemma nodes_cd : forall t, valid t -> vnodes [WCd t].
Proof. intros t H e [<-|[]]. exact H. Qed.
Lemma nodes_elem : forall n a m ks, vname n -> (forall t, In t a -> vattr t) -> vmap m -> vnodes ks -> vnodes [WElem n a m ks].
Proof.
  intros n a m ks Hn Ha Hm Hk e H. cbn [flat_map wtree] in H. rewrite app_nil_r in H. destruct H as [<-|H]; [cbn; auto|].
  apply in_app_or in H. destruct H as [H|[<-|[]]]; [auto|exact I].
Qed.
Lemma nodes_text_elem : forall q t, valid q -> valid t -> vnodes [text_elem q t].
Proof. intros q t Hq Ht. apply nodes_elem; [apply qname_valid; exact Hq|intros ? []|apply nil_valid|apply nodes_txt; exact Ht]. Qed.
Lemma oconcat_valid : forall (f : value -> option (list wnode)) l ts, (forall v ts, vvalue v -> f v = Some ts -> vnodes ts) ->
  (forall v, In v l -> vvalue v) -> oconcat f l = Some ts -> vnodes ts.
Proof.
  intros f. induction l as [|v l IH]; intros ts Hf Hl H; cbn [oconcat] in H; [inversion H; apply nodes_nil|].
  apply oapp_some in H. destruct H as (a & b & Ha & Hb & ->). apply nodes_app.
  - apply (Hf v); [apply Hl; left; reflexivity|exact Ha].
  - apply IH; auto. intros w Hw. apply Hl. right. exact Hw.
Qed.

(** ** Texts of numbers *)
Lemma digit_low : forall d, (d < 10)%N -> N.ltb (N_of_ascii (digit_char d)) 128 = true.
Proof. intros d H. unfold digit_char. rewrite N_ascii_embedding by lia. apply N.ltb_lt. lia. Qed.
Lemma digits_low : forall fuel n acc, low acc = true -> low (show_digits fuel n acc) = true.
Proof.
  induction fuel as [|f IH]; intros n acc H; cbn [show_digits]; [exact H|].
  assert (Hc : low (String (digit_char (n mod 10)) acc) = true).
  { unfold low in *. cbn [all_chars]. rewrite digit_low by (apply N.mod_lt; discriminate). exact H. }
  destruct (N.eqb (n / 10) 0); [exact Hc|apply IH; exact Hc].
Qed.
Lemma show_Z_low : forall z, low (show_Z z) = true.
Proof.
  intros [|p|p]; [reflexivity|apply digits_low; reflexivity|]. cbn [show_Z]. unfold low. cbn [all_chars].
  pose proof (digits_low (S (N.size_nat (Npos p))) (Npos p) "" eq_refl) as H. unfold low in H. unfold show_N. rewrite H. reflexivity.
Qed.
Lemma hex_low : forall d, (d < 16)%N -> N.ltb (N_of_ascii (hex_digit d)) 128 = true.
Proof.
  intros d Hd. assert (H : In d [0;1;2;3;4;5;6;7;8;9;10;11;12;13;14;15]%N).
  { destruct d as [|p]; [left; reflexivity|]. do 5 (destruct p as [p|p|]; cbn; try lia; try tauto). }
  cbn [In] in H. repeat (destruct H as [<-|H]; [reflexivity|]). destruct H.
Qed.
Lemma hex_digits_low : forall fuel n acc, low acc = true -> low (hex_digits fuel n acc) = true.
Proof.
  induction fuel as [|f IH]; intros n acc H; cbn [hex_digits]; [exact H|].
  assert (Hc : low (String (hex_digit (n mod 16)) acc) = true).
  { unfold low in *. cbn [all_chars]. rewrite hex_low by (apply N.mod_lt; discriminate). exact H. }
  destruct (N.eqb (n / 16) 0); [exact Hc|apply IH; exact Hc].
Qed.
Lemma show_hex_low : forall n, low (show_hex n) = true.
Proof.
  intros n. unfold show_hex. pose proof (hex_digits_low (S (N.size_nat n)) n "" eq_refl) as H. destruct (Nat.ltb _ _); [|exact H].
  unfold low in *. cbn [all_chars]. rewrite H. reflexivity.
Qed.

(** ** Names *)
Definition vstrs (l : list string) : Prop := forall s, In s l -> valid s.
Lemma vstrs_app : forall a b, vstrs (a ++ b) -> vstrs a /\ vstrs b.
Proof. intros a b H. split; intros s Hs; apply H, in_or_app; auto. Qed.
Lemma vopt_list : forall o, vstrs (opt_list o) -> vopt o.
Proof. intros [s|] H; [apply H; left; reflexivity|exact I]. Qed.
Lemma prefix_valid : forall d p, vopt p -> valid (prefix_part d p).
Proof. intros d p H. unfold prefix_part. destruct (opt_eqb d p); [reflexivity|]. destruct p as [p|]; [|reflexivity]. apply valid_app; [exact H|reflexivity]. Qed.
Lemma default_valid : forall a o, valid a -> vopt o -> valid (opt_default a o).
Proof. intros a [s|] Ha Ho; assumption. Qed.
Lemma attrs_parts : forall a, vstrs (attrs_strings a) -> vmap (ya_namespaces a) /\ vopt (ya_prefix a) /\ vopt (ya_rename a) /\ vopt (ya_tag a).
Proof.
  intros a H. unfold attrs_strings in H. apply vstrs_app in H. destruct H as [_ H]. apply vstrs_app in H. destruct H as [H1 H].
  apply vstrs_app in H. destruct H as [H2 H]. apply vstrs_app in H. destruct H as [H3 H4]. split; [|auto using vopt_list].
  intros pu Hp. split; apply H1, in_flat_map; exists pu; split; auto; [left|right; left]; reflexivity.
Qed.
Definition vfield (f : field) : Prop := vstrs (field_strings f).
Lemma field_qname_valid : forall ra f, vfield f -> valid (field_qname ra f).
Proof.
  intros ra f H. assert (Hl : valid (f_label f)) by (apply H; left; reflexivity).
  destruct (attrs_parts (f_attrs f)) as (_ & Hp & Hr & _); [intros s Hs; apply H; right; exact Hs|].
  apply valid_app; [apply prefix_valid; exact Hp|apply default_valid; assumption].
Qed.
Definition vvariant (v : variant) : Prop := vstrs (variant_strings v).
Lemma variant_parts : forall v, vvariant v -> valid (v_label v) /\ vopt (ya_prefix (v_attrs v)) /\ vopt (ya_rename (v_attrs v)) /\
  forall fs, v_body v = VbNamed fs -> forall f, In f fs -> vfield f.
Proof.
  intros v H. assert (Hl : valid (v_label v)) by (apply H; left; reflexivity).
  assert (Hr : vstrs (attrs_strings (v_attrs v) ++ match v_body v with VbNamed fs => flat_map field_strings fs | _ => [] end)) by (intros s Hs; apply H; right; exact Hs).
  apply vstrs_app in Hr. destruct Hr as [Ha Hf]. destruct (attrs_parts _ Ha) as (_ & Hp & Hr & _). repeat split; auto.
  intros fs Hb f Hin s Hs. apply Hf. rewrite Hb. apply in_flat_map. eauto.
Qed.
Lemma variant_qname_valid : forall ra v, vvariant v -> valid (variant_qname ra v).
Proof.
  intros ra v H. destruct (variant_parts v H) as (Hl & Hp & Hr & _). apply valid_app; [apply prefix_valid; exact Hp|apply default_valid; assumption].
Qed.
Definition vtype (td : typedef) : Prop := vstrs (type_strings td).
Lemma type_parts : forall td, vtype td -> valid (t_name td) /\ vstrs (attrs_strings (t_attrs td)) /\
  (forall fs, t_body td = DStruct fs -> forall f, In f fs -> vfield f) /\
  (forall vs d, t_body td = DEnum vs d -> forall v, In v vs -> vvariant v).
Proof.
  intros td H. split; [apply H; left; reflexivity|].
  assert (Hr : vstrs (attrs_strings (t_attrs td) ++ match t_body td with DStruct fs => flat_map field_strings fs | DEnum vs d => flat_map variant_strings vs ++ strings d | DPrim _ => [] end))
    by (intros s Hs; apply H; right; exact Hs).
  apply vstrs_app in Hr. destruct Hr as [Ha Hf]. split; [exact Ha|]. split.
  - intros fs Hb f Hin s Hs. apply Hf. rewrite Hb. apply in_flat_map. eauto.
  - intros vs d Hb v Hin s Hs. apply Hf. rewrite Hb. apply in_or_app. left. apply in_flat_map. eauto.
Qed.
Lemma declared_valid : forall ra, vmap (ya_namespaces ra) -> vmap (declared ra).
Proof.
  intros ra H. unfold declared. apply extend_valid; [apply nil_valid|]. intros pu Hp. apply in_map_iff in Hp. destruct Hp as (q & <- & Hq). destruct (H q Hq) as [H1 H2].
  cbn [fst snd]. split; [|exact H2]. destruct (opt_eqb _ _); [reflexivity|exact H1].
Qed.

Section Enc.
  Variables (x : ext) (E : env).
  Hypothesis Hf : forall d z, valid (x_fshow x d z).
  Hypothesis Hu : forall n z, valid (x_ushow x n z).
  Hypothesis HE : forall td, In td E -> vtype td.
  Definition vhow (h : how) : Prop := match h with Under o => vopt o | Inside => True end.
  Variable enc : nat -> value -> how -> option (list wnode).
  Variable enc_attrs : nat -> value -> option (list attr * nsmap).
  Hypothesis Henc : forall id v h ts, vvalue v -> vhow h -> enc id v h = Some ts -> vnodes ts.
  Definition vats (l : list attr) : Prop := forall a, In a l -> vattr a.
  Hypothesis Hattrs : forall id v ca cn, vvalue v -> enc_attrs id v = Some (ca, cn) -> vats ca /\ vmap cn.

  Lemma vats_app : forall a b, vats a -> vats b -> vats (a ++ b).
  Proof. intros a b Ha Hb t H. apply in_app_or in H. destruct H; auto. Qed.
  Lemma vats_nil : vats [].
  Proof. intros a []. Qed.
  Lemma show_simple_valid : forall s v t, vvalue v -> show_simple x s v = Some t -> valid t.
  Proof.
    intros s v t Hv H. destruct s, v; try discriminate; cbn [show_simple] in H; inversion H; subst.
    - apply Hv. left. reflexivity.
    - destruct b; reflexivity.
    - apply low_valid, show_Z_low.
    - apply Hf.
  Qed.
  Lemma show_prim_valid : forall n k v t, vvalue v -> show_prim x n k v = Some t -> valid t.
  Proof.
    intros n k v t Hv H. destruct k as [s|i m|]; cbn [show_prim] in H; [exact (show_simple_valid s v t Hv H)|..]; destruct v; try discriminate; inversion H; subst.
    - apply low_valid, show_hex_low.
    - apply Hu.
  Qed.
  Lemma some_valid : forall w, vvalue (VOpt (Some w)) -> vvalue w.
  Proof. intros w H s Hs. apply H. exact Hs. Qed.
  Lemma attr_show_valid : forall b v t, vvalue v -> attr_show x enc b v = Some t -> valid t.
  Proof.
    intros [s|id] v t Hv H; cbn [attr_show] in H; [exact (show_simple_valid s v t Hv H)|].
    apply omap_some in H. destruct H as (ts & H & ->). apply text_valid; [exact I|]. exact (Henc id v Inside ts Hv I H).
  Qed.
  Lemma enc_attr_valid : forall ra self f v l, vfield f -> vvalue v -> enc_attr x enc ra self f v = Some l -> vats l.
  Proof.
    intros ra self f v l Hq Hv H. unfold enc_attr in H.
    assert (Hone : forall w b, vvalue w -> omap (fun t => if left_out x self v f false then [] else [Attr (qname (field_qname ra f)) t]) (attr_show x enc b w) = Some l -> vats l).
    { intros w b Hw H'. apply omap_some in H'. destruct H' as (t & Ht & ->). destruct (left_out _ _ _ _ _); [apply vats_nil|].
      intros a [<-|[]]. split; cbn [at_name at_value]; [apply qname_valid, field_qname_valid; exact Hq|exact (attr_show_valid b w t Hw Ht)]. }
    destruct (f_ty f) as [b|b|b|b]; [exact (Hone v b Hv H)| | |destruct v; discriminate].
    - destruct v as [| | | | |[w|]| | |]; try discriminate; [exact (Hone w b (some_valid w Hv) H)|inversion H; apply vats_nil].
    - destruct v; try discriminate. inversion H. apply vats_nil.
  Qed.
  Lemma enc_tag_valid : forall ra self fs vs own child ns, (forall f, In f fs -> vfield f) -> (forall v, In v vs -> vvalue v) ->
    enc_tag x enc enc_attrs ra self fs vs = Some (own, child, ns) -> vats own /\ vats child /\ vmap ns.
  Proof.
    intros ra self. induction fs as [|f fs IH]; intros [|v vs] own child ns Hfs Hvs H; cbn [enc_tag] in H; try discriminate.
    - inversion H; subst. auto using vats_nil, nil_valid.
    - destruct (enc_tag x enc enc_attrs ra self fs vs) as [[[own0 child0] ns0]|] eqn:Hr; [|discriminate].
      destruct (IH vs own0 child0 ns0) as (H1 & H2 & H3); [intros g Hg; apply Hfs; right; exact Hg|intros w Hw; apply Hvs; right; exact Hw|exact Hr|].
      assert (Hv : vvalue v) by (apply Hvs; left; reflexivity). assert (Hq : vfield f) by (apply Hfs; left; reflexivity).
      destruct (ya_attribute (f_attrs f)).
      + apply omap_some in H. destruct H as (l & Hl & Heq). inversion Heq; subst. split; [|auto]. apply vats_app; [exact (enc_attr_valid ra self f v l Hq Hv Hl)|exact H1].
      + assert (Hsame : Some (own0, child0, ns0) = Some (own, child, ns) -> vats own /\ vats child /\ vmap ns) by (intros He; inversion He; subst; auto).
        destruct (ya_flatten (f_attrs f)); [|exact (Hsame H)]. destruct (f_ty f) as [[s|id]|b|b|b]; try exact (Hsame H).
        apply omap_some in H. destruct H as ([ca cn] & Hl & Heq). inversion Heq; subst. destruct (Hattrs id v ca cn Hv Hl) as [Hca Hcn].
        split; [exact H1|]. split; [apply vats_app; assumption|apply extend_valid; assumption].
  Qed.
  Lemma enc_simple_valid : forall q s v ts, valid q -> vvalue v -> enc_simple x q s v = Some ts -> vnodes ts.
  Proof.
    intros q s v ts Hq Hv H. apply omap_some in H. destruct H as (t & Ht & ->). apply nodes_text_elem; [exact Hq|exact (show_simple_valid s v t Hv Ht)].
  Qed.
  Lemma vec_valid : forall l, vvalue (VVec l) -> forall v, In v l -> vvalue v.
  Proof. intros l H. apply vlist_inv. exact H. Qed.
  Lemma enc_field_valid : forall ra self f v ts, vfield f -> vvalue v -> enc_field x enc ra self f v = Some ts -> vnodes ts.
  Proof.
    intros ra self f v ts Hq Hv H. unfold enc_field in H. pose proof (field_qname_valid ra f Hq) as Hqq.
    assert (Huser : forall id w ts, vvalue w -> enc id w (if ya_flatten (f_attrs f) then Inside else Under (Some (field_qname ra f))) = Some ts -> vnodes ts).
    { intros id w ts' Hw. apply Henc; [exact Hw|]. destruct (ya_flatten (f_attrs f)); [exact I|exact Hqq]. }
    destruct (ya_attribute (f_attrs f)); [inversion H; apply nodes_nil|]. destruct (ya_text (f_attrs f)).
    { destruct (f_ty f) as [[[]|]|[[]|]|b|b]; try discriminate; [destruct v; try discriminate|destruct v as [| | | | |[[]|]| | |]; try discriminate];
        inversion H; subst; apply nodes_txt; try reflexivity; apply Hv; left; reflexivity. }
    destruct (left_out x self v f true); [inversion H; apply nodes_nil|]. destruct (ya_cdata (f_attrs f)).
    { destruct (f_ty f) as [[[]|]|b|b|b]; try discriminate. destruct v; try discriminate. inversion H; subst.
      apply nodes_elem; [apply qname_valid; exact Hqq|intros ? []|apply nil_valid|]. apply nodes_cd. apply Hv. left. reflexivity. }
    destruct (f_ty f) as [[s|id]|[s|id]|[s|id]|[s|id]].
    - exact (enc_simple_valid _ s v ts Hqq Hv H).
    - exact (Huser id v ts Hv H).
    - destruct v as [| | | | |[w|]| | |]; try discriminate; [exact (enc_simple_valid _ s w ts Hqq (some_valid w Hv) H)|inversion H; apply nodes_nil].
    - destruct v as [| | | | |[w|]| | |]; try discriminate; [exact (Huser id w ts (some_valid w Hv) H)|inversion H; apply nodes_nil].
    - destruct v; try discriminate. apply (oconcat_valid _ _ _ (fun w ts' => enc_simple_valid _ s w ts' Hqq) (vec_valid _ Hv) H).
    - destruct v; try discriminate. apply (oconcat_valid _ _ _ (Huser id) (vec_valid _ Hv) H).
    - destruct v as [| | | | |[[]|]| | |]; try discriminate; [|inversion H; apply nodes_nil]. apply (oconcat_valid _ _ _ (fun w ts' => enc_simple_valid _ s w ts' Hqq) (vec_valid _ (some_valid _ Hv)) H).
    - destruct v as [| | | | |[[]|]| | |]; discriminate.
  Qed.
  Lemma enc_fields_valid : forall ra self fs vs ts, (forall f, In f fs -> vfield f) -> (forall v, In v vs -> vvalue v) ->
    enc_fields x enc ra self fs vs = Some ts -> vnodes ts.
  Proof.
    intros ra self. induction fs as [|f fs IH]; intros [|v vs] ts Hfs Hvs H; cbn [enc_fields] in H; try discriminate; [inversion H; apply nodes_nil|].
    apply oapp_some in H. destruct H as (a & b & Ha & Hb & ->). apply nodes_app.
    - apply (enc_field_valid ra self f v); [apply Hfs; left; reflexivity|apply Hvs; left; reflexivity|exact Ha].
    - apply (IH vs); [intros g Hg; apply Hfs; right; exact Hg|intros w Hw; apply Hvs; right; exact Hw|exact Hb].
  Qed.
  Lemma enc_item_valid : forall b v h ts, vvalue v -> vhow h -> enc_item x enc b v h = Some ts -> vnodes ts.
  Proof.
    intros [s|id] v h ts Hv Hh H; cbn [enc_item] in H; [|exact (Henc id v h ts Hv Hh H)].
    destruct s; try discriminate; apply omap_some in H; destruct H as (tx & Htx & ->); apply nodes_txt; exact (show_simple_valid _ v tx Hv Htx).
  Qed.
  Lemma enc_named_valid : forall ra fs vs ts, (forall f, In f fs -> vfield f) -> (forall v, In v vs -> vvalue v) ->
    enc_named_fields x enc ra fs vs = Some ts -> vnodes ts.
  Proof.
    intros ra. induction fs as [|f fs IH]; intros [|v vs] ts Hfs Hvs H; cbn [enc_named_fields] in H; try discriminate; [inversion H; apply nodes_nil|].
    apply oapp_some in H. destruct H as (a & b & Ha & Hb & ->). apply nodes_app.
    - assert (Hv : vvalue v) by (apply Hvs; left; reflexivity). assert (Hq : vfield f) by (apply Hfs; left; reflexivity). pose proof (field_qname_valid ra f Hq) as Hqq.
      unfold enc_named_field in Ha. destruct (f_ty f) as [[s|id]|bb|bb|bb].
      + exact (enc_simple_valid _ s v a Hqq Hv Ha).
      + exact (Henc id v (Under (Some _)) a Hv Hqq Ha).
      + destruct v; try discriminate. inversion Ha. apply nodes_nil.
      + destruct v; try discriminate. apply (oconcat_valid _ _ _ (fun w ts' Hw => enc_item_valid bb w (Under (Some _)) ts' Hw Hqq) (vec_valid _ Hv) Ha).
      + destruct v; try discriminate. inversion Ha. apply nodes_nil.
    - apply (IH vs); [intros g Hg; apply Hfs; right; exact Hg|intros w Hw; apply Hvs; right; exact Hw|exact Hb].
  Qed.
  Lemma payload_item_valid : forall q b v ts, valid q -> vvalue v -> enc_payload_item x enc q b v = Some ts -> vnodes ts.
  Proof.
    intros q b v ts Hq Hv H. apply omap_some in H. destruct H as (ks & Hk & ->). apply nodes_elem; [apply qname_valid; exact Hq|intros ? []|apply nil_valid|].
    destruct b as [s|id]; [|exact (enc_item_valid (BUser id) v Inside ks Hv I Hk)].
    destruct s; try exact (enc_item_valid _ v Inside ks Hv I Hk). destruct v; try discriminate. inversion Hk; subst. apply nodes_txt, Hv. left. reflexivity.
  Qed.
  Lemma payload_valid : forall h q fl t v ts, vhow h -> valid q -> vvalue v -> enc_payload x enc h q fl t v = Some ts -> vnodes ts.
  Proof.
    intros h q fl t v ts Hh Hq Hv H. unfold enc_payload in H. destruct t as [[s|id]|b|b|b].
    - exact (enc_simple_valid q s v ts Hq Hv H).
    - destruct fl; [exact (Henc id v h ts Hv Hh H)|exact (payload_item_valid q (BUser id) v ts Hq Hv H)].
    - destruct v as [| | | | |[w|]| | |]; try discriminate; [exact (payload_item_valid q b w ts Hq (some_valid w Hv) H)|inversion H; apply nodes_nil].
    - destruct v; try discriminate. exact (oconcat_valid _ _ _ (fun w ts' => payload_item_valid q b w ts' Hq) (vec_valid _ Hv) H).
    - destruct v as [| | | | |[]| | |]; discriminate.
  Qed.
  Lemma enc_variant_valid : forall h ra vr l ts, vhow h -> vvariant vr -> (forall v, In v l -> vvalue v) -> enc_variant x enc h ra vr l = Some ts -> vnodes ts.
  Proof.
    intros h ra vr l ts Hh Hvr Hl H. pose proof (variant_qname_valid ra vr Hvr) as Hq. unfold enc_variant in H.
    destruct (v_body vr) as [|fl t|fs] eqn:Hb.
    - destruct l; [|discriminate]. inversion H; subst. destruct (ya_tag ra); [apply nodes_nil|apply nodes_txt; exact Hq].
    - destruct l as [|v [|]]; try discriminate. exact (payload_valid h _ _ t v ts Hh Hq (Hl v (or_introl eq_refl)) H).
    - destruct (variant_parts vr Hvr) as (_ & _ & _ & Hfs). exact (enc_named_valid ra fs l ts (Hfs fs Hb) Hl H).
  Qed.
  Lemma enc_content_valid : forall h td v ts, vhow h -> vtype td -> vvalue v -> enc_content x enc h td v = Some ts -> vnodes ts.
  Proof.
    intros h td v ts Hh Ht Hv H. destruct (type_parts td Ht) as (_ & _ & Hs & Hen). unfold enc_content in H. destruct (t_body td) as [fs|vars d|k] eqn:Hb; [..|discriminate].
    - destruct v as [| | | | | | |vs|]; try discriminate. apply (enc_fields_valid (t_attrs td) (VRec vs) fs vs ts); [exact (Hs fs eq_refl)|apply vlist_inv; exact Hv|exact H].
    - destruct v as [| | | | | | | |i l]; try discriminate. destruct (nth_error vars i) as [vr|] eqn:Hi; [|discriminate].
      apply (enc_variant_valid h (t_attrs td) vr l ts); [exact Hh|exact (Hen vars d eq_refl vr (nth_error_In _ _ Hi))|apply vlist_inv; exact Hv|exact H].
  Qed.
  Lemma enc_start_valid : forall td v own child ns, vtype td -> vvalue v -> enc_start x enc enc_attrs td v = Some (own, child, ns) -> vats own /\ vats child /\ vmap ns.
  Proof.
    intros td v own child ns Ht Hv H. destruct (type_parts td Ht) as (_ & Ha & Hs & Hen). unfold enc_start in H. destruct (t_body td) as [fs|vars d|k] eqn:Hb; [..|discriminate].
    - destruct v as [| | | | | | |vs|]; try discriminate. apply (enc_tag_valid (t_attrs td) (VRec vs) fs vs own child ns (Hs fs eq_refl)); [apply vlist_inv; exact Hv|exact H].
    - destruct v as [| | | | | | | |i l]; try discriminate. apply omap_some in H. destruct H as (vr & Hi & Heq). inversion Heq; subst.
      split; [apply vats_nil|]. split; [|apply nil_valid]. destruct (attrs_parts _ Ha) as (_ & _ & _ & Htag).
      destruct (variant_parts vr (Hen vars d eq_refl vr (nth_error_In _ _ Hi))) as (Hl & _ & Hr & _).
      destruct (ya_tag (t_attrs td)) as [t|]; [|apply vats_nil]. intros a [<-|[]]. split; cbn [at_name at_value].
      + split; [exact Htag|split; exact I].
      + unfold variant_name. destruct (ya_rename (v_attrs vr)); [exact Hr|exact Hl].
  Qed.
  Lemma enc_type_valid : forall id v h ts, vvalue v -> vhow h -> enc_type x E enc enc_attrs id v h = Some ts -> vnodes ts.
  Proof.
    intros id v h ts Hv Hh H. unfold enc_type in H. destruct (nth_error E id) as [td|] eqn:Htd; [|discriminate]. pose proof (HE td (nth_error_In _ _ Htd)) as Ht.
    destruct (type_parts td Ht) as (Hn & Ha & _). destruct (attrs_parts _ Ha) as (Hns & Hp & Hr & _).
    assert (Hroot : forall o, vopt o -> valid (opt_default (ser_root td) o)).
    { intros o Ho. apply default_valid; [|exact Ho]. apply valid_app; [apply prefix_valid; exact Hp|apply default_valid; assumption]. }
    assert (Hgen : (match h with Inside => enc_content x enc h td v | Under o =>
            if ya_flatten (t_attrs td) then enc_content x enc h td v
            else match enc_start x enc enc_attrs td v, enc_content x enc h td v with
                 | Some (own, child, ns), Some ks =>
                     Some [WElem (qname (opt_default (ser_root td) o)) (own ++ child)
                                 (ns_extend (declared (t_attrs td)) ns) ks]
                 | _, _ => None
                 end end) = Some ts -> vnodes ts).
    { destruct h as [|o]; [apply enc_content_valid; assumption|]. destruct (ya_flatten (t_attrs td)); [apply enc_content_valid; assumption|].
      destruct (enc_start x enc enc_attrs td v) as [[[own child] ns]|] eqn:Hs; [|discriminate]. destruct (enc_content x enc (Under o) td v) as [ks|] eqn:Hc; [|discriminate].
      intros He. inversion He; subst. destruct (enc_start_valid td v own child ns Ht Hv Hs) as (H1 & H2 & H3).
      apply nodes_elem; [apply qname_valid, Hroot; exact Hh|apply vats_app; assumption|apply extend_valid; [apply declared_valid; exact Hns|exact H3]|].
      exact (enc_content_valid (Under o) td v ks Hh Ht Hv Hc). }
    destruct (t_body td) as [fs|vars d|k] eqn:Hb; [destruct h; apply Hgen; exact H|destruct h; apply Hgen; exact H|].
    destruct h as [|o]; apply omap_some in H; destruct H as (t & Hsh & ->); pose proof (show_prim_valid _ _ _ _ Hv Hsh) as Htt; [apply nodes_txt; exact Htt|].
    apply nodes_text_elem; [apply default_valid; assumption|exact Htt].
  Qed.
  Lemma enc_type_attrs_valid : forall id v ca cn, vvalue v -> enc_type_attrs x E enc enc_attrs id v = Some (ca, cn) -> vats ca /\ vmap cn.
  Proof.
    intros id v ca cn Hv H. unfold enc_type_attrs in H. destruct (nth_error E id) as [td|] eqn:Htd; [|discriminate]. pose proof (HE td (nth_error_In _ _ Htd)) as Ht.
    destruct (type_parts td Ht) as (_ & Ha & _). destruct (attrs_parts _ Ha) as (Hns & _).
    assert (Hgen : omap (fun '(own, child, ns) => (own ++ child, ns_extend (declared (t_attrs td)) ns)) (enc_start x enc enc_attrs td v) = Some (ca, cn) -> vats ca /\ vmap cn).
    { intros Ho. apply omap_some in Ho. destruct Ho as ([[own child] ns] & Hs & Heq). inversion Heq; subst. destruct (enc_start_valid td v own child ns Ht Hv Hs) as (H1 & H2 & H3).
      split; [apply vats_app; assumption|apply extend_valid; [apply declared_valid; exact Hns|exact H3]]. }
    destruct (t_body td); [exact (Hgen H)|exact (Hgen H)|]. inversion H; subst. split; [apply vats_nil|apply nil_valid].
  Qed.
End Enc.

Section All.
  Variables (x : ext) (E : env).
  Hypothesis Hx : unicode_code x.
  Hypothesis HE : unicode_types E.
  Lemma types_valid : forall td, In td E -> vtype td.
  Proof. intros td Ht s Hs. apply valid_unicode. exact (HE td s Ht Hs). Qed.
  Lemma enc_all_valid : forall n,
    (forall id v h ts, vvalue v -> vhow h -> fst (enc_all x E n) id v h = Some ts -> vnodes ts) /\
    (forall id v ca cn, vvalue v -> snd (enc_all x E n) id v = Some (ca, cn) -> vats ca /\ vmap cn).
  Proof.
    destruct Hx as (Hf & Hu & _).
    assert (Hf' : forall d z, valid (x_fshow x d z)) by (intros; apply valid_unicode, Hf).
    assert (Hu' : forall d z, valid (x_ushow x d z)) by (intros; apply valid_unicode, Hu).
    induction n as [|n [IH1 IH2]]; cbn [enc_all fst snd]; [split; discriminate|]. split.
    - intros. eapply enc_type_valid; eauto using types_valid.
    - intros. eapply enc_type_attrs_valid; eauto using types_valid.
  Qed.
  Lemma encode_valid : forall id v h ts, unicode_value v -> vhow h -> encode x E id v h = Some ts -> vnodes ts.
  Proof. intros id v h ts Hv. apply (proj1 (enc_all_valid _)), value_unicode. exact Hv. Qed.
End All.

Lemma config_valid : forall c, unicode_config c -> vconf (econf_of c).
Proof.
  intros c H. unfold vconf, econf_of. cbn [ec_indent]. destruct (c_indent c); [|exact I]. unfold unicode_config in H.
  destruct (c_indent_string c); [apply valid_unicode; exact H|reflexivity].
Qed.
Lemma expect_ok : forall r, (forall s, r = SOk s -> valid s) ->
  (forall s, expect_utf8 r = OOk s <-> r = SOk s) /\ forall m, expect_utf8 r <> OPanic m.
Proof.
  intros [s|m|] H; cbn [expect_utf8]; try (split; [split; discriminate|discriminate]).
  rewrite (proj2 (from_utf8_valid s) (H s eq_refl)). split; [|discriminate]. intros t. split; intros He; inversion He; reflexivity.
Qed.

Lemma unicode_events : forall x E, unicode_types E -> unicode_code x -> forall id v l, unicode_value v -> ser_events x E id v = SOk l ->
  forall e, In e l -> vwevent e.
Proof.
  intros x E HE Hx id v l Hv H. pose proof (ser_events_encode x E id v) as He. destruct (encode x E id v (Under None)) as [ts|] eqn:Hen.
  - rewrite He in H. inversion H; subst. exact (encode_valid x E Hx HE id v (Under None) ts Hv I Hen).
  - destruct (He l H).
Qed.
Lemma unicode_text : forall x E, unicode_types E -> unicode_code x -> forall c id v s, unicode_config c -> unicode_value v ->
  to_string_with_config x E c id v = SOk s -> valid s.
Proof.
  intros x E HE Hx c id v s Hc Hv H. unfold to_string_with_config in H. destruct (ser_events x E id v) as [l|m|] eqn:Hl; try discriminate.
  inversion H; subst. apply text_valid; [apply config_valid; exact Hc|exact (unicode_events x E HE Hx id v l Hv Hl)].
Qed.
Lemma unicode_content : forall x E, unicode_types E -> unicode_code x -> forall id v s, unicode_value v ->
  to_string_content (ser x E) id v = SOk s -> valid s.
Proof.
  intros x E HE Hx id v s Hv H. destruct (encode x E id v Inside) as [ts|] eqn:Hen.
  - rewrite (content_text x E id v ts Hen) in H. inversion H; subst. apply text_valid; [exact I|exact (encode_valid x E Hx HE id v Inside ts Hv I Hen)].
  - exfalso. unfold to_string_content in H. pose proof (ser_agrees x E never (covers_never E) id v Inside (WState [] [] 0 true None) eq_refl) as Ha.
    rewrite Hen in Ha. cbn [omap] in Ha. change (fun _ : nat => false) with never in H. destruct (ser x E id v never _) as [[[]|m|] w]; try discriminate. apply Ha. reflexivity.
Qed.
Lemma unicode_write : forall x E, unicode_types E -> unicode_code x -> forall c id v, unicode_config c -> unicode_value v ->
  (forall s, expect_utf8 (to_string_with_config x E c id v) = OOk s <-> to_string_with_config x E c id v = SOk s) /\
  (forall m, expect_utf8 (to_string_with_config x E c id v) <> OPanic m) /\
  forall s, to_string_with_config x E c id v = SOk s -> Unicode s.
Proof.
  intros x E HE Hx c id v Hc Hv. pose proof (fun s => unicode_text x E HE Hx c id v s Hc Hv) as H. destruct (expect_ok _ H) as [H1 H2].
  split; [exact H1|]. split; [exact H2|]. intros s Hs. apply valid_unicode, H, Hs.
Qed.
Lemma unicode_write_content : forall x E, unicode_types E -> unicode_code x -> forall id v, unicode_value v ->
  (forall s, expect_utf8 (to_string_content (ser x E) id v) = OOk s <-> to_string_content (ser x E) id v = SOk s) /\
  (forall m, expect_utf8 (to_string_content (ser x E) id v) <> OPanic m) /\
  forall s, to_string_content (ser x E) id v = SOk s -> Unicode s.
Proof.
  intros x E HE Hx id v Hv. pose proof (fun s => unicode_content x E HE Hx id v s Hv) as H. destruct (expect_ok _ H) as [H1 H2].
  split; [exact H1|]. split; [exact H2|]. intros s Hs. apply valid_unicode, H, Hs.
Qed.
