(** * A check for [well_named] *)
From Verif Require Import Str Num Xml XmlText Reader Schema De SpecTree TreeFacts SpecStruct StructProofs SpecHalt FuelProofs.
Open Scope list_scope.

Definition pair_dec : forall p q : nat * string, {p = q} + {p <> q}.
Proof. decide equality; [apply string_dec|apply Nat.eq_dec]. Defined.

Section Check.
  Variables (E : env) (evs : list event) (L : list (nat * string)).

  (** Type [i] may be read from elements of these names, whatever their
      namespace. *)
  Definition listed (i : nat) (n : name) : Prop := In (i, n_local n) L.
  Definition listedb (i : nat) (s : string) : bool := existsb (fun p => (Nat.eqb (fst p) i && String.eqb (snd p) s)%bool) L.

  Fixpoint only_textb (l : list event) : bool :=
    match l with
    | [] => true
    | EEnd _ :: _ => true
    | EChars _ :: r => only_textb r
    | _ => false
    end.
  Fixpoint leafb (s : string) (l : list event) : bool :=
    match l with
    | [] => true
    | e :: r => ((match e with EStart n _ _ => implb (String.eqb (n_local n) s) (only_textb r) | _ => true end) && leafb s r)%bool
    end.
  Definition unitb (v : variant) : bool := match v_body v with VbUnit => true | _ => false end.
  Definition from_textb (i : nat) : bool :=
    match nth_error E i with
    | Some td => match t_body td with DStruct _ => false | DEnum vs _ => existsb unitb vs | DPrim _ => true end
    | None => false
    end.
  Definition elemb (f : field) : bool := (negb (ya_attribute (f_attrs f)) && negb (ya_flatten (f_attrs f)))%bool.
  Definition settledb (ra : yattr) (fs : list field) : bool :=
    forallb (fun f => implb (elemb f && match base_of (f_ty f) with BSimple _ => true | BUser j => from_textb j end)
                        (leafb (snd (flabel ra f)) evs)) fs.
  Definition unlikeb (td : typedef) (fs : list field) (s : string) : bool :=
    forallb (fun f => implb (elemb f && String.eqb s (snd (flabel (t_attrs td) f))) (label_eqb (flabel (t_attrs td) f) (root_label td))) fs.
  Definition newtypeb (i : nat) : bool :=
    match nth_error E i with Some td => match t_body td with DPrim _ => true | _ => false end | None => true end.
  Definition saidb (s : string) : bool := existsb (fun e => match e with EChars t => String.eqb t s | _ => false end) evs.
  Definition variantb (td : typedef) (s : string) (v : variant) : bool :=
    match v_body v with
    | VbNew _ t =>
        (match ya_tag (t_attrs td) with None => true | _ => false end && negb (String.eqb s (variant_name v)) &&
         match base_of t with
         | BUser i => listedb i (variant_name v) && (newtypeb i || negb (saidb (variant_name v)))
         | BSimple _ => true
         end)%bool
    | _ => true
    end.
  Definition entryb (p : nat * string) : bool :=
    match nth_error E (fst p) with
    | None => true
    | Some td =>
        match t_body td with
        | DStruct fs =>
            (settledb (t_attrs td) fs && unlikeb td fs (snd p) &&
             forallb (fun f => implb (elemb f) (match base_of (f_ty f) with BSimple _ => true | BUser i => listedb i (snd (flabel (t_attrs td) f)) end)) fs)%bool
        | DEnum vs _ => forallb (variantb td (snd p)) vs
        | DPrim _ => true
        end
    end.
  Definition well_namedb : bool := forallb entryb L.

  Lemma listedb_ok : forall i s, listedb i s = true -> In (i, s) L.
  Proof.
    intros i s H. apply existsb_exists in H. destruct H as ([j t] & Hin & H). apply andb_prop in H. destruct H as [H1 H2].
    apply Nat.eqb_eq in H1. apply String.eqb_eq in H2. cbn [fst snd] in *. subst. exact Hin.
  Qed.
  Lemma only_textb_ok : forall l, only_textb l = true -> only_text l.
  Proof. induction l as [|[] l IH]; cbn; intros H; try discriminate; auto. Qed.
  Lemma leafb_ok : forall s l n, leafb s l = true -> n_local n = s -> leaf_name l n.
  Proof.
    intros s l n H Hn pre. revert l H. induction pre as [|e pre IH]; intros l H a m r ->; cbn [leafb app] in H; apply andb_prop in H; destruct H as [H1 H2].
    - rewrite Hn, String.eqb_refl in H1. apply only_textb_ok. exact H1.
    - exact (IH _ H2 _ _ _ eq_refl).
  Qed.
  Lemma elemb_ok : forall f, elem_field f -> elemb f = true.
  Proof. intros f [H1 H2]. unfold elemb. rewrite H1, H2. reflexivity. Qed.
  Lemma from_textb_ok : forall i, from_text E i -> from_textb i = true.
  Proof.
    intros i (td & Htd & H). unfold from_textb. rewrite Htd. destruct (t_body td) as [fs|vs d|k]; [destruct H| |reflexivity].
    destruct H as (s & k & H). unfold variant_for in H. destruct (find _ _) as [[j v]|] eqn:Hf; [|discriminate]. injection H as <- Hb.
    apply find_some in Hf. destruct Hf as [Hin _]. apply existsb_exists. exists v. split.
    - unfold numbered in Hin. apply in_combine_r in Hin. exact Hin.
    - unfold unitb. rewrite Hb. reflexivity.
  Qed.
  Lemma settledb_ok : forall ra fs, settledb ra fs = true -> settled E evs ra fs.
  Proof.
    intros ra fs H f n Hf Hel Hlab Hb. unfold settledb in H. rewrite forallb_forall in H. specialize (H f Hf).
    rewrite (elemb_ok f Hel) in H. cbn [andb] in H.
    assert (Hx : match base_of (f_ty f) with BSimple _ => true | BUser j => from_textb j end = true).
    { destruct (base_of (f_ty f)); [reflexivity|apply from_textb_ok; exact Hb]. }
    rewrite Hx in H. cbn [implb] in H. eapply leafb_ok; [exact H|]. rewrite <- Hlab. reflexivity.
  Qed.
  Lemma unlikeb_ok : forall td fs n, unlikeb td fs (n_local n) = true -> unlike td fs n.
  Proof.
    intros td fs n H f Hf Hel Hlab. unfold unlikeb in H. rewrite forallb_forall in H. specialize (H f Hf).
    rewrite (elemb_ok f Hel), <- Hlab in H. cbn [snd elabel] in H. rewrite String.eqb_refl in H. cbn [andb implb] in H.
    apply label_eqb_eq in H. exact H.
  Qed.

  Theorem well_namedb_ok : well_namedb = true -> well_named E evs listed.
  Proof.
    intros H id n td Hid Htd. unfold well_namedb in H. rewrite forallb_forall in H. specialize (H _ Hid).
    unfold entryb in H. cbn [fst snd] in H. rewrite Htd in H. destruct (t_body td) as [fs|vs d|k]; [| |exact I].
    - apply andb_prop in H. destruct H as [H H3]. apply andb_prop in H. destruct H as [H1 H2].
      apply settledb_ok in H1. apply unlikeb_ok in H2. rewrite forallb_forall in H3.
      intros f Hf. assert (H4 := H3 f Hf).
      split; [intros _; exact H2|]. intros Hel. rewrite (elemb_ok f Hel) in H4. cbn [implb] in H4.
      destruct (base_of (f_ty f)) as [s|i]; [apply H2; assumption|].
      apply listedb_ok in H4. split; [|left; split; assumption].
      intros n' Hn'. unfold listed. rewrite <- Hn' in H4. exact H4.
    - intros s i fl t Hv. unfold variant_for in Hv. destruct (find _ _) as [[j v]|] eqn:Hf; [|discriminate]. injection Hv as <- Hb.
      apply find_some in Hf. destruct Hf as [Hin Hs]. cbn [snd] in Hs. rewrite Hb in Hs. apply String.eqb_eq in Hs.
      unfold numbered in Hin. apply in_combine_r in Hin. rewrite forallb_forall in H. specialize (H v Hin).
      unfold variantb in H. rewrite Hb, Hs in H. apply andb_prop in H. destruct H as [H H3]. apply andb_prop in H. destruct H as [H1 H2].
      split; [destruct (ya_tag (t_attrs td)); [discriminate|reflexivity]|].
      split; [intros Hx; rewrite Hx, String.eqb_refl in H2; discriminate|].
      intros i1 Hi. rewrite Hi in H3. apply andb_prop in H3. destruct H3 as [H3 H4]. apply listedb_ok in H3.
      split; [intros n' Hn'; unfold listed; rewrite Hn'; exact H3|].
      intros Hsaid. apply Bool.orb_true_iff in H4. destruct H4 as [H4|H4].
      + intros td' Htd'. unfold newtypeb in H4. rewrite Htd' in H4. destruct (t_body td'); try discriminate. eauto.
      + exfalso. assert (Hx : saidb s = true) by (apply existsb_exists; exists (EChars s); split; [exact Hsaid|apply String.eqb_refl]).
        rewrite Hx in H4. discriminate.
  Qed.

  (** The texts of the attributes of user types. *)
  Definition attr_texts_of (f : field) : list (nat * string) :=
    match base_of (f_ty f) with
    | BUser i => if ya_attribute (f_attrs f) then
        flat_map (fun e => match e with
          | EStart _ attrs _ => flat_map (fun a => if String.eqb (n_local (at_name a)) (field_name f)
                then map (pair i) (match f_ty f with TVec _ => split_ws (at_value a) | _ => [at_value a] end) else []) attrs
          | _ => [] end) evs else []
    | BSimple _ => []
    end.
  Definition attr_texts : list (nat * string) :=
    flat_map (fun td => match t_body td with DStruct fs => flat_map attr_texts_of fs | _ => [] end) E.

  Lemma attr_texts_all : forall i t, attr_text E evs i t -> In (i, t) attr_texts.
  Proof.
    intros i t (id & td & fs & f & n & attrs & m & a & [Htd Hb] & Hf & Ha & Hu & Hin & Hia & Hloc & Ht).
    unfold attr_texts. apply in_flat_map. exists td. split; [exact (nth_error_In _ _ Htd)|]. rewrite Hb.
    apply in_flat_map. exists f. split; [exact Hf|]. unfold attr_texts_of. rewrite Hu, Ha.
    apply in_flat_map. eexists. split; [exact Hin|]. cbn beta iota. apply in_flat_map. exists a. split; [exact Hia|].
    rewrite Hloc, String.eqb_refl. apply in_map. destruct (f_ty f); try (left; symmetry; exact Ht). exact Ht.
  Qed.

  Lemma attr_texts_ok : forall i t, In (i, t) attr_texts -> attr_text E evs i t.
  Proof.
    intros i t H. unfold attr_texts in H. apply in_flat_map in H. destruct H as (td & Htd & H).
    apply In_nth_error in Htd. destruct Htd as [id Htd]. destruct (t_body td) as [fs| |] eqn:Hb; try (destruct H; fail).
    apply in_flat_map in H. destruct H as (f & Hf & H). unfold attr_texts_of in H.
    destruct (base_of (f_ty f)) as [s|j] eqn:Hu; [destruct H|]. destruct (ya_attribute (f_attrs f)) eqn:Ha; [|destruct H].
    apply in_flat_map in H. destruct H as (e & Hin & H). destruct e as [ | |pi|n attrs m|n|w|w|w|w]; try (destruct H; fail).
    apply in_flat_map in H. destruct H as (a & Hia & H). destruct (String.eqb_spec (n_local (at_name a)) (field_name f)) as [Hloc|]; [|destruct H].
    apply in_map_iff in H. destruct H as (t' & Heq & H). injection Heq as <- <-.
    exists id, td, fs, f, n, attrs, m, a. repeat split; auto.
    destruct (f_ty f); try (destruct H as [H|[]]; symmetry; exact H). exact H.
  Qed.

  (** Each of them can be read with enough fuel, so all can with the same. *)
  Lemma attr_texts_bound : forall x, (forall i t, attr_text E evs i t -> exists f, from_str x E f i (attr_document E i t) <> OFuel) ->
    exists F, forall i t f, attr_text E evs i t -> F <= f -> from_str x E f i (attr_document E i t) <> OFuel.
  Proof.
    intros x H.
    assert (HL : forall l, incl l attr_texts -> (forall i t, In (i, t) l -> exists f, from_str x E f i (attr_document E i t) <> OFuel) ->
      exists F, forall i t f, In (i, t) l -> F <= f -> from_str x E f i (attr_document E i t) <> OFuel).
    { induction l as [|[i t] l IH]; intros Hi Hl; [exists 0; intros i t f []|].
      destruct IH as [F HF]; [intros z Hz; apply Hi; right; exact Hz|intros i' t' Hz; apply Hl; right; exact Hz|].
      destruct (Hl i t) as [f0 Hf0]; [left; reflexivity|]. exists (F + f0). intros i' t' f [Hx|Hx] Hf.
      - injection Hx as <- <-. unfold from_str in *. rewrite (fuel_more x E i _ f0 f); [exact Hf0|lia|exact Hf0].
      - apply HF; [exact Hx|lia]. }
    destruct (HL attr_texts (incl_refl _)) as [F HF].
    - intros i t Ht. apply H. apply attr_texts_ok. exact Ht.
    - exists F. intros i t f Ht. apply HF. apply attr_texts_all. exact Ht.
  Qed.

  Lemma attr_texts_check : forall x F, forallb (fun p => match from_str x E F (fst p) (attr_document E (fst p) (snd p)) with OFuel => false | _ => true end) attr_texts = true ->
    forall i t, attr_text E evs i t -> exists f, from_str x E f i (attr_document E i t) <> OFuel.
  Proof.
    intros x F H i t Ht. apply attr_texts_all in Ht. rewrite forallb_forall in H. specialize (H _ Ht). cbn [fst snd] in H.
    exists F. intros Hx. rewrite Hx in H. discriminate.
  Qed.

  (** The texts of what may be left for flattened fields, with the struct and
      the name it is read from. *)
  Fixpoint starts_of (l : list event) : list (name * list attr * nsmap * list event) :=
    match l with
    | [] => []
    | e :: r => match e with EStart n a m => [(n, a, m, r)] | _ => [] end ++ starts_of r
    end.
  Fixpoint somes_of (l : list event) : list (list event) :=
    match l with
    | [] => [[]]
    | e :: r => map (cons e) (somes_of r) ++ somes_of r
    end.
  Fixpoint all_some {A} (l : list (option A)) : option (list A) :=
    match l with
    | [] => Some []
    | Some a :: r => option_map (cons a) (all_some r)
    | None :: _ => None
    end.
  Definition rest_texts_of (id : nat) (f : field) : list (nat * name * nat * string) :=
    match base_of (f_ty f) with
    | BUser i => if flat_field f then
        flat_map (fun '(n, a, m, r) => flat_map (fun l => match all_some (map as_writer_event (EStart n a m :: l)) with
            | Some ws => [(id, n, i, emit_text default_econf ws)] | None => [] end) (somes_of r)) (starts_of evs) else []
    | BSimple _ => []
    end.
  Definition rest_texts : list (nat * name * nat * string) :=
    flat_map (fun '(id, td) => match t_body td with DStruct fs => flat_map (rest_texts_of id) fs | _ => [] end) (numbered E).

  Lemma starts_all : forall n a m r pre, In (n, a, m, r) (starts_of (pre ++ EStart n a m :: r)).
  Proof. intros n a m r pre. induction pre as [|e pre IH]; cbn [app starts_of]; [left; reflexivity|apply in_or_app; right; exact IH]. Qed.
  Lemma starts_ok : forall n a m r l, In (n, a, m, r) (starts_of l) -> exists pre, l = pre ++ EStart n a m :: r.
  Proof.
    intros n a m r l. induction l as [|e l IH]; intros H; [destruct H|]. cbn [starts_of] in H. apply in_app_or in H. destruct H as [H|H].
    - destruct e; try (destruct H; fail). destruct H as [H|[]]. injection H as -> -> -> ->. exists []. reflexivity.
    - destruct (IH H) as [pre ->]. exists (e :: pre). reflexivity.
  Qed.
  Lemma somes_all : forall l r, some_of l r -> In l (somes_of r).
  Proof.
    intros l r H. induction H as [|e l r H IH|e l r H IH]; cbn [somes_of]; [left; reflexivity| |];
      apply in_or_app; [left; apply in_map; exact IH|right; exact IH].
  Qed.
  Lemma somes_ok : forall r l, In l (somes_of r) -> some_of l r.
  Proof.
    induction r as [|e r IH]; intros l H; cbn [somes_of] in H; [destruct H as [<-|[]]; constructor|].
    apply in_app_or in H. destruct H as [H|H]; [|apply so_leave, IH, H].
    apply in_map_iff in H. destruct H as (l' & <- & H). constructor. apply IH, H.
  Qed.
  Lemma all_some_iff : forall A (l : list (option A)) r, all_some l = Some r <-> l = map Some r.
  Proof.
    intros A l. induction l as [|[a|] l IH]; intros r; cbn [all_some].
    - split; [intros H; injection H as <-; reflexivity|destruct r; [reflexivity|discriminate]].
    - split.
      + intros H. destruct (all_some l) as [r'|]; [|discriminate]. cbn in H. injection H as <-. cbn [map]. f_equal. apply IH. reflexivity.
      + destruct r as [|b r]; [discriminate|]. cbn [map]. intros H. injection H as -> ->. rewrite (proj2 (IH r) eq_refl). reflexivity.
    - split; [discriminate|destruct r; discriminate].
  Qed.
  Lemma numbered_nth : forall (l : list typedef) k td, In (k, td) (numbered l) <-> nth_error l k = Some td.
  Proof.
    intros l. unfold numbered.
    assert (H : forall b k td, In (k, td) (combine (seq b (List.length l)) l) <-> b <= k /\ nth_error l (k - b) = Some td).
    { induction l as [|t l IH]; intros b k td; cbn [List.length seq combine].
      - split; [intros []|intros [_ H]; destruct (k - b); discriminate].
      - split.
        + intros [H|H]; [injection H as -> ->; rewrite Nat.sub_diag; split; [lia|reflexivity]|].
          apply IH in H. destruct H as [H1 H2]. split; [lia|]. replace (k - b) with (S (k - S b)) by lia. exact H2.
        + intros [H1 H2]. destruct (Nat.eq_dec b k) as [->|Hne].
          * rewrite Nat.sub_diag in H2. injection H2 as ->. left; reflexivity.
          * right. apply IH. split; [lia|]. replace (k - b) with (S (k - S b)) in H2 by lia. exact H2. }
    intros k td. rewrite H. rewrite Nat.sub_0_r. split; [intros [_ H']; exact H'|intros H'; split; [lia|exact H']].
  Qed.
  Lemma rest_texts_all : forall C i t, rest_text E evs C i t -> exists id n, C id n /\ In (id, n, i, t) rest_texts.
  Proof.
    intros C i t (id & td & fs & f & n & a & m & pre & r & l & ws & [Htd Hb] & Hf & Hff & Hu & HC & Hev & Hl & Hws & ->).
    exists id, n. split; [exact HC|]. unfold rest_texts. apply in_flat_map. exists (id, td). split; [apply numbered_nth; exact Htd|].
    rewrite Hb. apply in_flat_map. exists f. split; [exact Hf|]. unfold rest_texts_of. rewrite Hu, Hff.
    apply in_flat_map. exists (n, a, m, r). split; [rewrite Hev; apply starts_all|]. apply in_flat_map. exists l. split; [apply somes_all; exact Hl|].
    rewrite (proj2 (all_some_iff _ _ _) Hws). left; reflexivity.
  Qed.
  Lemma rest_texts_ok : forall (C : nat -> name -> Prop) id n i t, In (id, n, i, t) rest_texts -> C id n -> rest_text E evs C i t.
  Proof.
    intros C id n i t H HC. unfold rest_texts in H. apply in_flat_map in H. destruct H as ([id' td] & Htd & H). apply numbered_nth in Htd.
    destruct (t_body td) as [fs| |] eqn:Hb; try (destruct H; fail). apply in_flat_map in H. destruct H as (f & Hf & H).
    unfold rest_texts_of in H. destruct (base_of (f_ty f)) as [s|j] eqn:Hu; [destruct H|]. destruct (flat_field f) eqn:Hff; [|destruct H].
    apply in_flat_map in H. destruct H as ([[[n' a] m] r] & Hst & H). apply in_flat_map in H. destruct H as (l & Hl & H).
    destruct (all_some _) as [ws|] eqn:Hws; [|destruct H]. destruct H as [H|[]]. injection H as -> -> -> <-.
    apply all_some_iff in Hws. destruct (starts_ok _ _ _ _ _ Hst) as [pre Hpre].
    exists id, td, fs, f, n, a, m, pre, r, l, ws. split; [split; assumption|]. repeat (split; [auto using somes_ok|]). reflexivity.
  Qed.

  Lemma rest_texts_bound : forall x C, (forall i n, C i n \/ ~ C i n) ->
    (forall i t, rest_text E evs C i t -> exists f, from_str x E f i t <> OFuel) ->
    exists F, forall i t f, rest_text E evs C i t -> F <= f -> from_str x E f i t <> OFuel.
  Proof.
    intros x C Hdec H.
    assert (HL : forall l, incl l rest_texts -> exists F, forall id n i t f, In (id, n, i, t) l -> C id n -> F <= f -> from_str x E f i t <> OFuel).
    { induction l as [|[[[id n] i] t] l IH]; intros Hi; [exists 0; intros id n i t f []|].
      destruct IH as [F HF]; [intros z Hz; apply Hi; right; exact Hz|].
      destruct (Hdec id n) as [HC|HC].
      - destruct (H i t) as [f0 Hf0]; [eapply rest_texts_ok; [apply Hi; left; reflexivity|exact HC]|].
        exists (F + f0). intros id' n' i' t' f [Hx|Hx] HC' Hf.
        + injection Hx as <- <- <- <-. unfold from_str in *. rewrite (fuel_more x E i _ f0 f); [exact Hf0|lia|exact Hf0].
        + eapply HF; [exact Hx|exact HC'|lia].
      - exists F. intros id' n' i' t' f [Hx|Hx] HC' Hf; [injection Hx as <- <- <- <-; destruct (HC HC')|]. eapply HF; eauto. }
    destruct (HL rest_texts (incl_refl _)) as [F HF]. exists F. intros i t f Ht Hf.
    destruct (rest_texts_all C i t Ht) as (id & n & HC & Hin). eapply HF; eauto.
  Qed.

  Lemma listed_dec : forall i n, listed i n \/ ~ listed i n.
  Proof.
    intros i n. unfold listed. destruct (in_dec pair_dec (i, n_local n) L) as [H|H]; [left|right]; exact H.
  Qed.
  Lemma rest_texts_check : forall x F,
    forallb (fun '(id, n, i, t) => implb (listedb id (n_local n)) (match from_str x E F i t with OFuel => false | _ => true end)) rest_texts = true ->
    forall i t, rest_text E evs listed i t -> exists f, from_str x E f i t <> OFuel.
  Proof.
    intros x F H i t Ht. apply rest_texts_all in Ht. destruct Ht as (id & n & HC & Hin). rewrite forallb_forall in H. specialize (H _ Hin).
    cbn beta iota in H. assert (Hb : listedb id (n_local n) = true).
    { apply existsb_exists. exists (id, n_local n). split; [exact HC|]. cbn [fst snd]. rewrite Nat.eqb_refl, String.eqb_refl. reflexivity. }
    rewrite Hb in H. exists F. intros Hx. rewrite Hx in H. discriminate.
  Qed.
  Lemma no_rest : (forall td fs f, In td E -> t_body td = DStruct fs -> In f fs -> flat_field f = false) ->
    forall C i t, ~ rest_text E evs C i t.
  Proof.
    intros H C i t (id & td & fs & f & n & a & m & pre & r & l & ws & [Htd Hb] & Hf & Hff & _).
    rewrite (H td fs f (nth_error_In _ _ Htd) Hb Hf) in Hff. discriminate.
  Qed.
End Check.
