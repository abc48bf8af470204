(** * Proofs about the front of the derive macros (C44 to C46). *)
From Verif Require Import Str Num Xml XmlText Reader Schema Macro SpecMacro.
From Coq Require Import Lia.
Open Scope list_scope.

(** ** Induction over types *)
Section RtyInd.
  Variable P : rty -> Prop.
  Hypothesis Hpath : forall segs,
    (forall pre id a rest, segs = pre ++ [(id, Some (Some a :: rest))] -> P a) -> P (RPath segs).
  Hypothesis Hgroup : forall t, P t -> P (RGroup t).
  Hypothesis Hother : P ROther.
  Fixpoint rty_ind' (t : rty) : P t.
  Proof.
    destruct t as [segs|t|]; [|apply Hgroup, rty_ind'|exact Hother].
    apply Hpath.
    revert segs. fix go 1. intros segs.
    destruct segs as [|[id args] l].
    - intros pre id a rest E. destruct pre; discriminate E.
    - assert (Ha : match args with Some (Some a :: _) => P a | _ => True end).
      { destruct args as [[|[a|] ?]|]; [exact I|exact (rty_ind' a)|exact I|exact I]. }
      intros [|s pre] id' a rest E.
      + injection E as E1 E2 E3. rewrite E2 in Ha. exact Ha.
      + injection E as E1 E2. exact (go l pre id' a rest E2).
  Qed.
End RtyInd.

(** ** Classification *)

(** The argument of [Option] or [Vec]. *)
Definition argument_kind (args : option (list (option rty))) : mres kind :=
  match args with
  | Some (Some t' :: _) =>
      match t' with
      | RPath _ => from_path t'
      | RGroup t'' => match t'' with RPath _ => from_path t'' | _ => MPanic "unable to match" end
      | ROther => MPanic "unable to match"
      end
  | _ => MPanic "unable to match"
  end.

Definition last_kind (segs : rpath) (id : string) (args : option (list (option rty))) : mres kind :=
  match simple_named id with
  | Some s => MOk (KSimple s)
  | None =>
      if String.eqb id "Option" then do k <- argument_kind args; MOk (KOpt k)
      else if String.eqb id "Vec" then do k <- argument_kind args; MOk (KVec k)
      else MOk (KUser segs)
  end.

Lemma from_path_last pre id args :
  from_path (RPath (pre ++ [(id, args)])) = last_kind (pre ++ [(id, args)]) id args.
Proof.
  set (segs := pre ++ [(id, args)]).
  change (from_path (RPath segs)) with
    ((fix last_segment (l : rpath) : mres kind :=
         match l with
         | [] => MOk (KUser segs)
         | (id, args) :: l' =>
             match l' with
             | _ :: _ => last_segment l'
             | [] => last_kind segs id args
             end
         end) segs).
  unfold segs at 3. generalize segs as g. intros g.
  induction pre as [|[i a] pre IH]; [reflexivity|].
  cbn [app]. destruct (pre ++ [(id, args)]) eqn:E; [destruct pre; discriminate E|].
  exact IH.
Qed.

Lemma from_path_nil : from_path (RPath []) = MOk (KUser []).
Proof. reflexivity. Qed.

Lemma segs_cases (segs : rpath) : segs = [] \/ exists pre id args, segs = pre ++ [(id, args)].
Proof.
  destruct segs as [|s l]; [left; reflexivity|right].
  destruct (exists_last (l := s :: l)) as [pre [[id args] E]]; [discriminate|].
  exists pre, id, args. exact E.
Qed.

Lemma simple_named_prelude id s : simple_named id = Some s -> In (id, IsSimple s) prelude.
Proof.
  unfold simple_named. intros H.
  repeat (match type of H with
          | context [match ?x with _ => _ end] => destruct x
          end; try discriminate H);
  injection H as <-; cbn [prelude In]; tauto.
Qed.

Lemma simple_named_none id : simple_named id = None -> id <> "Option" -> id <> "Vec" -> forall m, ~ In (id, m) prelude.
Proof.
  intros H H1 H2 m Hin. cbn [prelude In] in Hin.
  repeat match type of Hin with
  | _ \/ _ => destruct Hin as [Hin|Hin]; [injection Hin as Hi Hm; subst id; try discriminate H; try (apply H1; reflexivity); try (apply H2; reflexivity)|]
  end.
  exact Hin.
Qed.

Lemma mbind_ok {A B} (m : mres A) (f : A -> mres B) b : mbind m f = MOk b -> exists a, m = MOk a /\ f a = MOk b.
Proof. destruct m as [a|w]; cbn; intros H; [exists a; split; [reflexivity|exact H]|discriminate H]. Qed.

Lemma argument_type a rest k : argument_kind (Some (Some a :: rest)) = MOk k -> get_type a = MOk k.
Proof.
  unfold argument_kind. destruct a as [p|t|]; [exact (fun H => H)| |exact (fun H => H)].
  destruct t; intros H; [exact H|discriminate H|discriminate H].
Qed.

Lemma argument_type_back a rest : argument a -> argument_kind (Some (Some a :: rest)) = get_type a.
Proof.
  unfold argument, argument_kind. destruct a as [p|t|]; [reflexivity| |intros []].
  destruct t; [reflexivity|intros []|intros []].
Qed.

Lemma app_last_inj {A} (p q : list A) a b : p ++ [a] = q ++ [b] -> p = q /\ a = b.
Proof. apply app_inj_tail. Qed.

(** Inversion of meanings at a known last segment. *)
Lemma last_meaning sc pre id args ty :
  Means sc (RPath (pre ++ [(id, args)])) ty ->
  match sc (map fst pre ++ [id]) with
  | IsSimple s => ty = TySimple s
  | IsOption => exists a rest t, args = Some (Some a :: rest) /\ Means sc a t /\ ty = TyOption t
  | IsVec => exists a rest t, args = Some (Some a :: rest) /\ Means sc a t /\ ty = TyVec t
  | IsOther => ty = TyUser (pre ++ [(id, args)])
  end.
Proof.
  intros H.
  assert (E : map fst (pre ++ [(id, args)]) = map fst pre ++ [id]) by (rewrite map_app; reflexivity).
  remember (RPath (pre ++ [(id, args)])) as t eqn:Et.
  destruct H as [segs s H|pre' id' a rest t' H Ha|pre' id' a rest t' H Ha|segs H|t' ty' H];
    try discriminate Et; injection Et as Et.
  - subst segs. rewrite E in H. rewrite H. reflexivity.
  - apply app_last_inj in Et. destruct Et as [Ep Ea]. injection Ea as Ei Ea. subst pre' id' args.
    rewrite H. exists a, rest, t'. split; [reflexivity|]. split; [exact Ha|reflexivity].
  - apply app_last_inj in Et. destruct Et as [Ep Ea]. injection Ea as Ei Ea. subst pre' id' args.
    rewrite H. exists a, rest, t'. split; [reflexivity|]. split; [exact Ha|reflexivity].
  - subst segs. rewrite E in H. rewrite H. reflexivity.
Qed.

Theorem classified : forall sc t ty k, unshadowed sc -> Means sc t ty -> get_type t = MOk k -> handled k = ty.
Proof.
  intros sc t ty k [Hp [Ho Hn]]. revert ty k.
  induction t as [segs IH|t IH|] using rty_ind'; intros ty k HM H.
  - cbn [get_type] in H. destruct (segs_cases segs) as [->|[pre [id [args ->]]]].
    + rewrite from_path_nil in H. injection H as <-. cbn [handled].
      remember (RPath []) as t eqn:Et. destruct HM; try discriminate Et; injection Et as Et; subst.
      * cbn [map] in H. rewrite Hn in H. discriminate H.
      * symmetry in Et. destruct pre; discriminate Et.
      * symmetry in Et. destruct pre; discriminate Et.
      * reflexivity.
    + rewrite from_path_last in H. apply last_meaning in HM. unfold last_kind in H.
      destruct (simple_named id) as [s|] eqn:Es.
      { injection H as <-. rewrite (Hp (map fst pre) id _ (simple_named_prelude _ _ Es)) in HM. symmetry. exact HM. }
      destruct (String.eqb_spec id "Option") as [->|N1].
      { rewrite (Hp (map fst pre) "Option"%string IsOption) in HM by (cbn; tauto).
        destruct HM as [a [rest [t [-> [Ha ->]]]]].
        apply mbind_ok in H. destruct H as [k' [H Hk]]. injection Hk as <-.
        cbn [handled]. f_equal. eapply IH; [reflexivity|exact Ha|apply (argument_type _ rest); exact H]. }
      destruct (String.eqb_spec id "Vec") as [->|N2].
      { rewrite (Hp (map fst pre) "Vec"%string IsVec) in HM by (cbn; tauto).
        destruct HM as [a [rest [t [-> [Ha ->]]]]].
        apply mbind_ok in H. destruct H as [k' [H Hk]]. injection Hk as <-.
        cbn [handled]. f_equal. eapply IH; [reflexivity|exact Ha|apply (argument_type _ rest); exact H]. }
      rewrite (Ho (map fst pre) id (simple_named_none _ Es N1 N2)) in HM.
      injection H as <-. symmetry. exact HM.
  - cbn [get_type] in H. inversion HM; subst. eapply IH; eassumption.
  - discriminate H.
Qed.

Theorem classifiable : forall sc t ty, unshadowed sc -> Means sc t ty -> ungrouped t ->
  exists k, get_type t = MOk k /\ handled k = ty.
Proof.
  intros sc t ty Hs HM HU.
  assert (X : exists k, get_type t = MOk k); [|destruct X as [k X]; exists k; split; [exact X|eapply classified; eassumption]].
  destruct Hs as [Hp [Ho Hn]]. revert ty HM HU.
  induction t as [segs IH|t IH|] using rty_ind'; intros ty HM HU.
  - cbn [get_type]. destruct (segs_cases segs) as [->|[pre [id [args ->]]]]; [eexists; reflexivity|].
    rewrite from_path_last. apply last_meaning in HM. unfold last_kind.
    inversion HU as [segs HU'|]; subst.
    destruct (simple_named id) as [s|]; [eexists; reflexivity|].
    assert (Harg : (exists a rest t, args = Some (Some a :: rest) /\ Means sc a t) ->
              exists k, argument_kind args = MOk k).
    { intros [a [rest [t [-> Ha]]]]. destruct (HU' _ _ _ _ eq_refl) as [A1 A2].
      rewrite argument_type_back by exact A1. eapply IH; [reflexivity|exact Ha|exact A2]. }
    destruct (String.eqb_spec id "Option") as [->|N1].
    { rewrite (Hp (map fst pre) "Option"%string IsOption) in HM by (cbn; tauto).
      destruct HM as [a [rest [t [E [Ha _]]]]].
      destruct Harg as [k Hk]; [exists a, rest, t; split; assumption|]. rewrite Hk. eexists; reflexivity. }
    destruct (String.eqb_spec id "Vec") as [->|N2].
    { rewrite (Hp (map fst pre) "Vec"%string IsVec) in HM by (cbn; tauto).
      destruct HM as [a [rest [t [E [Ha _]]]]].
      destruct Harg as [k Hk]; [exists a, rest, t; split; assumption|]. rewrite Hk. eexists; reflexivity. }
    eexists; reflexivity.
  - cbn [get_type]. inversion HM; subst. inversion HU; subst. eapply IH; eassumption.
  - inversion HM.
Qed.

(** ** Attributes *)

Lemma yattr_from_options l a : yattr_from l = MOk a <-> options l a.
Proof.
  induction l as [|b l IH]; cbn [yattr_from].
  - split.
    + intros H. injection H as <-. left. split; [constructor|reflexivity].
    + intros [[_ ->]|[pre [post [E _]]]]; [reflexivity|destruct pre; discriminate E].
  - unfold yattr_try. destruct b as [p m]. cbn [ra_path ra_meta].
    destruct (String.eqb_spec p "yaserde") as [->|N].
    + split.
      * destruct m as [|[y|e]|]; cbn [mbind]; intros H; try discriminate H.
        injection H as <-. right. exists [], l. split; [reflexivity|constructor].
      * intros [[HF _]|[pre [post [E HF]]]].
        { inversion HF as [|x xs H1 H2]; subst. exfalso. apply H1. reflexivity. }
        destruct pre as [|q pre].
        { injection E as Em El. subst m. reflexivity. }
        injection E as Eq El. inversion HF as [|x xs H1 H2]; subst. exfalso. apply H1. reflexivity.
    + cbn [mbind]. rewrite IH. split.
      * intros [[HF ->]|[pre [post [-> HF]]]].
        { left. split; [constructor; [exact N|exact HF]|reflexivity]. }
        right. exists (RAttr p m :: pre), post. split; [reflexivity|constructor; [exact N|exact HF]].
      * intros [[HF ->]|[pre [post [E HF]]]].
        { left. inversion HF; subst. split; [assumption|reflexivity]. }
        destruct pre as [|q pre].
        { injection E as E1 E2 E3. exfalso. apply N. exact E1. }
        injection E as Eq El. right. exists pre, post. inversion HF; subst. split; [reflexivity|assumption].
Qed.

Lemma options_unique l a b : options l a -> options l b -> a = b.
Proof. intros H1 H2. apply yattr_from_options in H1, H2. rewrite H1 in H2. injection H2 as ->. reflexivity. Qed.

(** ** Accepted definitions *)

Lemma mall_ok {A} (f : A -> mres unit) l : mall f l = MOk tt <-> Forall (fun a => f a = MOk tt) l.
Proof.
  induction l as [|a l IH]; cbn [mall].
  - split; [constructor|reflexivity].
  - split.
    + intros H. apply mbind_ok in H. destruct H as [[] [H1 H2]]. constructor; [exact H1|apply IH; exact H2].
    + intros H. inversion H; subst. rewrite H2. cbn. apply IH. assumption.
Qed.

Lemma Forall_iff {A} (P Q : A -> Prop) l : (forall a, P a <-> Q a) -> (Forall P l <-> Forall Q l).
Proof. intros H. split; intros HF; induction HF; constructor; try apply H; assumption. Qed.

Lemma seq_ok (m n : mres unit) : mbind m (fun _ => n) = MOk tt <-> m = MOk tt /\ n = MOk tt.
Proof.
  destruct m as [[]|w]; cbn.
  - split; [intros H; split; [reflexivity|exact H]|intros [_ H]; exact H].
  - split; [intros H; discriminate H|intros [H _]; discriminate H].
Qed.

Lemma label_ok f a : (exists s, label_of (YField (rf_ident f) a (rf_ty f)) = MOk s) <-> labelled f a.
Proof.
  unfold label_of, labelled. cbn [y_attrs y_ident].
  destruct (ya_rename a) as [r|].
  - split; [intros _; right; discriminate|intros _; eexists; reflexivity].
  - destruct (rf_ident f) as [i|].
    + split; [intros _; left; discriminate|intros _; eexists; reflexivity].
    + split; [intros [s H]; discriminate H|intros [H|H]; exfalso; apply H; reflexivity].
Qed.

Lemma label_then f a (m : mres unit) :
  mbind (label_of (YField (rf_ident f) a (rf_ty f))) (fun _ => m) = MOk tt <-> labelled f a /\ m = MOk tt.
Proof.
  rewrite <- label_ok. destruct (label_of (YField (rf_ident f) a (rf_ty f))) as [s|w]; cbn.
  - split; [intros H; split; [exists s; reflexivity|exact H]|intros [_ H]; exact H].
  - split; [intros H; discriminate H|intros [[s H] _]; discriminate H].
Qed.

Lemma ident_start_letter : forall c, ident_start c = true <-> letter c.
Proof.
  intros c. unfold letter.
  assert (Hd : forall l, In c l \/ ~ In c l) by (intros l; destruct (in_dec Ascii.ascii_dec c l); auto).
  split.
  - intros H. destruct (Nat.leb 128 (nat_of_ascii c)) eqn:E; [right; apply Nat.leb_le; exact E|left].
    destruct c as [[] [] [] [] [] [] [] []]; vm_compute in E; try discriminate E; vm_compute in H; try discriminate H; vm_compute; tauto.
  - intros [H|H].
    + cbn in H. repeat (destruct H as [<-|H]; [reflexivity|]). destruct H.
    + unfold ident_start. apply Nat.leb_le in H. rewrite H. apply orb_true_r.
Qed.
Lemma ident_continue_letter : forall c, ident_continue c = true <-> letter c \/ digit c.
Proof.
  intros c. unfold ident_continue. rewrite Bool.orb_true_iff, ident_start_letter. apply or_iff_compat_l. unfold digit.
  destruct c as [[] [] [] [] [] [] [] []]; vm_compute; split; intros H; try discriminate H; try reflexivity; try tauto;
    repeat (destruct H as [H|H]; [discriminate H|]); destruct H.
Qed.
Lemma all_chars_forall : forall p s, all_chars p s = true <-> Forall (fun c => p c = true) (list_ascii_of_string s).
Proof.
  intros p s. induction s as [|c s IH]; cbn [all_chars list_ascii_of_string]; [split; auto|].
  rewrite Bool.andb_true_iff, IH. split; [intros [H1 H2]; constructor; auto|intros H; inversion H; auto].
Qed.
Lemma is_ident_name : forall s, is_ident s = true <-> rust_name s.
Proof.
  intros [|c s]; unfold is_ident, rust_name; cbn [list_ascii_of_string]; [split; [discriminate|contradiction]|].
  rewrite Bool.andb_true_iff, ident_start_letter, all_chars_forall. apply and_iff_compat_l.
  split; apply Forall_impl; intros d; apply ident_continue_letter.
Qed.
Lemma function_named o : function_ok o = MOk tt <-> named_function o.
Proof.
  unfold function_ok, named_function. destruct o as [s|]; [|split; [intros _; exact I|reflexivity]].
  rewrite <- is_ident_name. destruct (is_ident s); split; intros H; (reflexivity || discriminate H).
Qed.

Lemma field_parts f (F : yfield -> kind -> mres unit) :
  (do y <- ya_field f; do k <- get_type (y_ty y); F y k) = MOk tt <->
  exists a k, options (rf_attrs f) a /\ get_type (rf_ty f) = MOk k /\
    F (YField (rf_ident f) a (rf_ty f)) k = MOk tt.
Proof.
  split.
  - intros H. apply mbind_ok in H. destruct H as [y [Hy H]].
    unfold ya_field in Hy. apply mbind_ok in Hy. destruct Hy as [a [Ha Hy]]. injection Hy as <-.
    cbn [y_ty] in H. apply mbind_ok in H. destruct H as [k [Hk H]].
    exists a, k. split; [apply yattr_from_options; exact Ha|]. split; [exact Hk|exact H].
  - intros [a [k [Ha [Hk H]]]]. apply yattr_from_options in Ha. unfold ya_field. rewrite Ha. cbn [mbind y_ty].
    rewrite Hk. exact H.
Qed.

Lemma mok_ok : mok = MOk tt <-> True.
Proof. split; [intros _; exact I|reflexivity]. Qed.
Lemma panic_ok w : @MPanic unit w = MOk tt <-> False.
Proof. split; [intros H; discriminate H|intros []]. Qed.

Lemma unit_ok (m : mres unit) : (m ;! mok) = MOk tt <-> m = MOk tt.
Proof. rewrite seq_ok. rewrite mok_ok. tauto. Qed.

Lemma tt_iff : true = true <-> True. Proof. split; reflexivity || (intros; exact I). Qed.
Lemma ff_iff : false = false <-> True. Proof. split; reflexivity || (intros; exact I). Qed.
Lemma tf_iff : true = false <-> False. Proof. split; [intros H; discriminate H|intros []]. Qed.
Lemma ft_iff : false = true <-> False. Proof. split; [intros H; discriminate H|intros []]. Qed.

Lemma de_field_readable f : de_field f = MOk tt <-> readable_field f.
Proof.
  unfold de_field, readable_field. rewrite field_parts.
  assert (X : forall a k, options (rf_attrs f) a -> get_type (rf_ty f) = MOk k ->
    ((match k with
      | KVec k' => if nested k' then MPanic "Option or Vec nested in Vec<>" else mok
      | _ => mok
      end ;!
      (if (ya_attribute a || match k with KVec k' | KOpt k' => negb (user_kind k') | KUser _ => false | KSimple _ => true end)%bool
       then match k with
            | KVec k' | KOpt k' => if nested k' then mok else label_of (YField (rf_ident f) a (rf_ty f)) ;! mok
            | _ => label_of (YField (rf_ident f) a (rf_ty f)) ;! mok
            end
       else mok) ;!
      (if (negb (ya_attribute a) && negb (ya_flatten a))%bool
       then label_of (YField (rf_ident f) a (rf_ty f)) ;!
            match k with KVec k' | KOpt k' => if nested k' then MPanic "not implemented" else mok | _ => mok end
       else mok) ;!
      (if (negb (ya_attribute a) && ya_flatten a)%bool
       then match k with KUser _ => mok | KOpt (KUser _) => mok | _ => MPanic """flatten"" is not implemented" end
       else mok) ;!
      (if ya_attribute a
       then label_of (YField (rf_ident f) a (rf_ty f)) ;!
            match k with KVec k' | KOpt k' => if nested k' then MPanic "not implemented" else mok | _ => mok end
       else mok) ;!
      match k with KOpt _ | KVec _ => mok | _ => function_ok (ya_default a) end) = MOk tt <->
     storable k /\
     (ya_attribute a = false -> ya_flatten a = true -> exists p, k = KUser p \/ k = KOpt (KUser p)) /\
     (ya_attribute a = true \/ ya_flatten a = false -> labelled f a) /\
     (scalar k -> named_function (ya_default a)))).
  { intros a k _ _.
    destruct (ya_attribute a), (ya_flatten a);
    destruct k as [s|k'|k'|p]; try destruct k' as [s'|k''|k''|p'];
      cbn [nested user_kind negb orb andb storable scalar];
      repeat rewrite seq_ok; repeat rewrite label_then; repeat rewrite mok_ok; repeat rewrite panic_ok;
      repeat rewrite function_named;
      rewrite ?tt_iff, ?tf_iff, ?ft_iff, ?ff_iff;
      match goal with
      | |- context [ex ?Q] =>
          first [ assert (Hq : ex Q) by (eexists; (left; reflexivity) || (right; reflexivity))
                | assert (Hq : ~ ex Q) by (intros [? [Hx|Hx]]; discriminate Hx) ]
      end; tauto. }
  split.
  - intros [a [k [Ha [Hk H]]]]. exists a, k. split; [exact Ha|]. split; [exact Hk|]. apply X; assumption.
  - intros [a [k [Ha [Hk H]]]]. exists a, k. split; [exact Ha|]. split; [exact Hk|]. apply X in H; assumption.
Qed.

Lemma de_payload_readable f :
  de_payload f = MOk tt <-> exists a k, options (rf_attrs f) a /\ get_type (rf_ty f) = MOk k /\ storable k.
Proof.
  unfold de_payload. rewrite field_parts.
  split; intros [a [k [Ha [Hk H]]]]; exists a, k; split; try exact Ha; split; try exact Hk.
  - destruct k as [s|k'|k'|p]; try exact I; destruct k'; cbn in *; try exact I; discriminate H.
  - destruct k as [s|k'|k'|p]; try reflexivity; destruct k'; cbn in *; try reflexivity; destruct H.
Qed.

Lemma attrs_then l (m : mres unit) : mbind (yattr_from l) (fun _ => m) = MOk tt <-> (exists a, options l a) /\ m = MOk tt.
Proof.
  split.
  - intros H. apply mbind_ok in H. destruct H as [a [Ha H]]. split; [exists a; apply yattr_from_options; exact Ha|exact H].
  - intros [[a Ha] H]. apply yattr_from_options in Ha. rewrite Ha. exact H.
Qed.

Lemma de_variant_readable v : de_variant v = MOk tt <-> readable_variant v.
Proof.
  unfold de_variant, readable_variant. rewrite attrs_then.
  destruct (rv_fields v) as [|[|f [|g l]]|fs].
  - rewrite mok_ok. tauto.
  - cbn. rewrite mok_ok. tauto.
  - cbn [mall length Nat.ltb Nat.leb]. rewrite seq_ok, seq_ok, mok_ok, de_payload_readable. tauto.
  - cbn [length Nat.ltb Nat.leb]. rewrite seq_ok, panic_ok. tauto.
  - rewrite mok_ok. tauto.
Qed.

Theorem derive_de_readable : forall i, derive_de i = MOk tt <-> readable i.
Proof.
  intros i. unfold derive_de, readable. rewrite attrs_then.
  destruct (ri_data i) as [fs|vs|].
  - rewrite mall_ok. rewrite (Forall_iff _ _ _ de_field_readable). tauto.
  - rewrite mall_ok. rewrite (Forall_iff _ _ _ de_variant_readable). tauto.
  - rewrite panic_ok. tauto.
Qed.

Lemma attrs_parts f (F : yfield -> mres unit) :
  (do y <- ya_field f; F y) = MOk tt <->
  exists a, options (rf_attrs f) a /\ F (YField (rf_ident f) a (rf_ty f)) = MOk tt.
Proof.
  split.
  - intros H. apply mbind_ok in H. destruct H as [y [Hy H]].
    unfold ya_field in Hy. apply mbind_ok in Hy. destruct Hy as [a [Ha Hy]]. injection Hy as <-.
    exists a. split; [apply yattr_from_options; exact Ha|exact H].
  - intros [a [Ha H]]. apply yattr_from_options in Ha. unfold ya_field. rewrite Ha. exact H.
Qed.

Lemma type_then t (F : kind -> mres unit) :
  (do k <- get_type t; F k) = MOk tt <-> exists k, get_type t = MOk k /\ F k = MOk tt.
Proof.
  split.
  - intros H. apply mbind_ok in H. exact H.
  - intros [k [Hk H]]. rewrite Hk. exact H.
Qed.

Lemma ser_field_writable f : ser_field f = MOk tt <-> writable_field f.
Proof.
  unfold ser_field, writable_field. rewrite attrs_parts. cbn [y_ty y_attrs y_ident].
  assert (X : forall (P Q : yattr -> Prop), (forall a, P a <-> Q a) -> ((exists a, options (rf_attrs f) a /\ P a) <-> exists a, options (rf_attrs f) a /\ Q a)).
  { intros P Q H. split; intros [a [Ha Hp]]; exists a; (split; [exact Ha|apply H; exact Hp]). }
  apply X. clear X. intros a. destruct (ya_attribute a).
  - rewrite label_then, type_then.
    split; intros [HL [k [Hk H]]]; (split; [exact HL|]); exists k; (split; [exact Hk|]).
    + destruct k as [s|k'|k'|p]; [| |exact I|].
      * apply seq_ok in H. rewrite !function_named in H. tauto.
      * destruct k'; try discriminate H; apply seq_ok in H; rewrite !function_named in H; tauto.
      * apply seq_ok in H. rewrite !function_named in H. tauto.
    + destruct k as [s|k'|k'|p]; [| |reflexivity|].
      * apply seq_ok. rewrite !function_named. tauto.
      * destruct k'; try contradiction; apply seq_ok; rewrite !function_named; tauto.
      * apply seq_ok. rewrite !function_named. tauto.
  - assert (T : (get_type (rf_ty f) ;! mok) = MOk tt <-> exists k, get_type (rf_ty f) = MOk k).
    { rewrite type_then. split; [intros [k [H _]]; exists k; exact H|intros [k H]; exists k; split; [exact H|reflexivity]]. }
    rewrite seq_ok.
    assert (FL : (if ya_flatten a then get_type (rf_ty f) ;! mok else mok) = MOk tt <->
                 (ya_flatten a = true -> exists k, get_type (rf_ty f) = MOk k)).
    { destruct (ya_flatten a); [rewrite T; tauto|rewrite mok_ok; split; [intros _ H; discriminate H|tauto]]. }
    rewrite FL. destruct (ya_text a).
    + rewrite T. split; [intros [H1 H2]; split; [tauto|intros H; discriminate H]|intros [H _]; tauto].
    + rewrite label_then, !seq_ok, !function_named.
      assert (C : (if ya_cdata a then mok
                   else do k <- get_type (rf_ty f);
                        match k with
                        | KOpt (KOpt _) => MPanic "not implemented"
                        | KVec (KVec _) => MPanic "not implemented"
                        | _ => mok
                        end) = MOk tt <->
                  (ya_cdata a = false -> exists k, get_type (rf_ty f) = MOk k /\ not_doubled k)).
      { destruct (ya_cdata a); [rewrite mok_ok; split; [intros _ H; discriminate H|tauto]|].
        rewrite type_then. split.
        - intros [k [Hk H]] _. exists k. split; [exact Hk|].
          destruct k as [s|k'|k'|p]; try exact I; destruct k'; try exact I; discriminate H.
        - intros H. destruct (H eq_refl) as [k [Hk Hd]]. exists k. split; [exact Hk|].
          destruct k as [s|k'|k'|p]; try reflexivity; destruct k'; try reflexivity; destruct Hd. }
      rewrite C. split.
      * intros [H1 [H2 [H3 [H4 H5]]]]. split; [intros [H|H]; [exact (H1 H)|discriminate H]|]. intros _. tauto.
      * intros [H1 H2]. destruct (H2 eq_refl) as [H3 [H4 [H5 H6]]]. split; [intros H; apply H1; left; exact H|]. tauto.
Qed.

Lemma get_id_word k : get_id k = MOk tt <-> one_word k.
Proof.
  destruct k as [s|k|k|[|[i [a|]] [|q p]]]; cbn; rewrite ?mok_ok, ?panic_ok; tauto.
Qed.

Lemma ser_vfield_writable named f : ser_vfield named f = MOk tt <-> writable_vfield named f.
Proof.
  unfold ser_vfield, writable_vfield. rewrite attrs_parts. cbn [y_ty y_attrs y_ident].
  assert (T : (get_type (rf_ty f) ;! mok) = MOk tt <-> exists k, get_type (rf_ty f) = MOk k).
  { rewrite type_then. split; [intros [k [H _]]; exists k; exact H|intros [k H]; exists k; split; [exact H|reflexivity]]. }
  assert (X : forall (P Q : yattr -> Prop), (forall a, P a <-> Q a) -> ((exists a, options (rf_attrs f) a /\ P a) <-> exists a, options (rf_attrs f) a /\ Q a)).
  { intros P Q H. split; intros [a [Ha Hp]]; exists a; (split; [exact Ha|apply H; exact Hp]). }
  apply X. clear X. intros a. rewrite seq_ok. destruct (ya_attribute a).
  - rewrite type_then, mok_ok. split.
    + intros [[k [Hk H]] _]. exists k. split; [exact Hk|apply get_id_word; exact H].
    + intros [k [Hk H]]. split; [|exact I]. exists k. split; [exact Hk|apply get_id_word; exact H].
  - assert (FL : (if ya_flatten a then do k <- get_type (rf_ty f); if user_kind k then get_id k else mok else mok) = MOk tt <->
       (ya_flatten a = true -> exists k, get_type (rf_ty f) = MOk k /\ forall p, k = KUser p -> one_word k)).
    { destruct (ya_flatten a); [|rewrite mok_ok, ft_iff; tauto]. rewrite type_then. split.
      - intros [k [Hk H]] _. exists k. split; [exact Hk|]. intros p ->. apply get_id_word. exact H.
      - intros H. destruct (H eq_refl) as [k [Hk HW]]. exists k. split; [exact Hk|].
        destruct k; try reflexivity. apply get_id_word. exact (HW p eq_refl). }
    rewrite FL. destruct named.
    + destruct (ya_text a).
      * rewrite mok_ok, tf_iff. tauto.
      * rewrite label_then, T, tf_iff, ff_iff. tauto.
    + rewrite T, ff_iff, ft_iff. tauto.
Qed.

Theorem derive_ser_writable : forall i, derive_ser i = MOk tt <-> writable i.
Proof.
  intros i. unfold derive_ser, writable. rewrite attrs_then.
  destruct (ri_data i) as [fs|vs|].
  - rewrite mall_ok. rewrite (Forall_iff _ _ _ ser_field_writable). tauto.
  - rewrite mall_ok.
    assert (V : forall v, ser_variant v = MOk tt <-> writable_variant v).
    { intros v. unfold ser_variant, writable_variant. rewrite attrs_then.
      destruct (rv_fields v).
      - rewrite mok_ok. tauto.
      - rewrite mall_ok, (Forall_iff _ _ _ (ser_vfield_writable false)). tauto.
      - rewrite mall_ok, (Forall_iff _ _ _ (ser_vfield_writable true)). tauto. }
    rewrite (Forall_iff _ _ _ V). tauto.
  - rewrite panic_ok. tauto.
Qed.

(** ** The model covers what [YaDeserialize] accepts *)

Lemma oall_some {A B} (f : A -> option B) (P : B -> Prop) l :
  Forall (fun a => exists b, f a = Some b /\ P b) l -> exists m, oall f l = Some m /\ Forall P m.
Proof.
  induction 1 as [|a l [b [Hb Pb]] _ [m [Hm Pm]]]; [exists []; split; [reflexivity|constructor]|].
  exists (b :: m). cbn [oall]. rewrite Hb, Hm. split; [reflexivity|constructor; assumption].
Qed.

Lemma lower_storable resolve k :
  (forall p, resolve p <> None) -> storable k -> exists t, lower_kind resolve k = Some t /\ simple_form t.
Proof.
  intros HR HS.
  assert (HB : forall k', scalar k' -> exists b, lower_base resolve k' = Some b).
  { intros [s|?|?|p] Hk; try contradiction; cbn; [eexists; reflexivity|].
    specialize (HR p). destruct (resolve p); [eexists; reflexivity|exfalso; apply HR; reflexivity]. }
  destruct k as [s|k'|k'|p].
  - eexists. split; [reflexivity|exact I].
  - cbn [storable] in HS. destruct (HB k' HS) as [b Hb].
    destruct k'; try contradiction; cbn [lower_kind]; rewrite Hb; (eexists; split; [reflexivity|exact I]).
  - cbn [storable] in HS. destruct (HB k' HS) as [b Hb].
    cbn [lower_kind]. rewrite Hb. eexists. split; [reflexivity|exact I].
  - destruct (HB (KUser p) I) as [b Hb]. cbn [lower_kind]. rewrite Hb. eexists. split; [reflexivity|exact I].
Qed.

Lemma lower_options l a : options l a -> lower_attrs l = Some a.
Proof. intros H. apply yattr_from_options in H. unfold lower_attrs. rewrite H. reflexivity. Qed.

Theorem derived_modelled : forall resolve d i,
  derive_de i = MOk tt -> named_fields i -> (forall p, resolve p <> None) ->
  exists t, lower_item resolve d i = Some t /\ forms t.
Proof.
  intros resolve d i H HN HR. apply derive_de_readable in H. destruct H as [[a Ha] H].
  unfold lower_item. rewrite (lower_options _ _ Ha). unfold named_fields in HN.
  destruct (ri_data i) as [fs|vs|]; [| |contradiction].
  - destruct (oall_some (lower_field resolve) (fun f => simple_form (f_ty f)) (fields_of fs)) as [m [Hm Pm]].
    { rewrite Forall_forall in *. intros f Hf. specialize (H f Hf). specialize (HN f Hf).
      destruct H as [b [k [Hb [Hk [Hs _]]]]]. unfold lower_field, lower_type.
      rewrite (lower_options _ _ Hb), Hk. destruct (lower_storable resolve k HR Hs) as [t [Ht Pt]]. rewrite Ht.
      destruct (rf_ident f) as [i'|]; [|exfalso; apply HN; reflexivity]. eexists. split; [reflexivity|exact Pt]. }
    rewrite Hm. eexists. split; [reflexivity|exact Pm].
  - destruct (oall_some (lower_variant resolve) (fun v => match v_body v with VbNew _ t => simple_form t | _ => True end) vs) as [m [Hm Pm]].
    { rewrite Forall_forall in *. intros v Hv. specialize (H v Hv). specialize (HN v Hv).
      destruct H as [[b Hb] H]. unfold lower_variant. rewrite (lower_options _ _ Hb). unfold lower_vbody.
      destruct (rv_fields v) as [|[|f [|g l]]|[|f l]]; try contradiction; try (eexists; split; [reflexivity|exact I]).
      destruct H as [c [k [Hc [Hk Hs]]]]. rewrite (lower_options _ _ Hc). unfold lower_type. rewrite Hk.
      destruct (lower_storable resolve k HR Hs) as [t [Ht Pt]]. rewrite Ht. eexists. split; [reflexivity|exact Pt]. }
    rewrite Hm. eexists. split; [reflexivity|exact Pm].
Qed.

(** ** Definitions as data *)
Lemma options_lower l a : lower_attrs l = Some a -> options l a.
Proof. unfold lower_attrs. intros H. apply yattr_from_options. destruct (yattr_from l) as [b|]; [|discriminate H]. injection H as ->. reflexivity. Qed.
Lemma lower_base_held resolve k b : lower_base resolve k = Some b -> held resolve (handled k) b.
Proof.
  destruct k as [s|k|k|q]; cbn [lower_base handled]; intros H; try discriminate H; [injection H as <-; constructor|].
  destruct (resolve q) as [i|] eqn:E; [|discriminate H]. injection H as <-. constructor. exact E.
Qed.
Lemma lower_type_as sc resolve r t : unshadowed sc -> lower_type resolve (rf_ty r) = Some t -> types_as sc resolve r t.
Proof.
  intros Hsc H ty Hty. unfold lower_type in H. destruct (get_type (rf_ty r)) as [k|] eqn:Hk; [|discriminate H].
  rewrite <- (classified sc _ _ _ Hsc Hty Hk). clear Hk Hty.
  assert (Hb : forall (c : base -> fty) o, omap c o = Some t -> exists b, o = Some b /\ t = c b) by (intros c [b|] E; [injection E as <-; eauto|discriminate E]).
  destruct k as [s|k|k|q]; cbn [lower_kind] in H.
  - apply Hb in H. destruct H as (b & Hb' & ->). apply S_base. apply lower_base_held in Hb'. exact Hb'.
  - destruct k as [s|k|k|q]; apply Hb in H; destruct H as (b & Hb' & ->); apply lower_base_held in Hb'; cbn [handled];
      first [apply S_option; exact Hb'|apply S_option_vec; exact Hb'].
  - apply Hb in H. destruct H as (b & Hb' & ->). apply lower_base_held in Hb'. apply S_vec. exact Hb'.
  - apply Hb in H. destruct H as (b & Hb' & ->). apply S_base. apply lower_base_held in Hb'. exact Hb'.
Qed.
Lemma lower_field_as sc resolve r f : unshadowed sc -> lower_field resolve r = Some f -> field_as sc resolve r f.
Proof.
  intros Hsc H. unfold lower_field in H. destruct (rf_ident r) as [i|] eqn:Hi; [|discriminate H].
  destruct (lower_attrs (rf_attrs r)) as [a|] eqn:Ha; [|discriminate H]. destruct (lower_type resolve (rf_ty r)) as [t|] eqn:Ht; [|discriminate H].
  injection H as <-. split; [exact Hi|]. split; [apply options_lower; exact Ha|apply lower_type_as; assumption].
Qed.
Lemma oall_forall2 {A B} (f : A -> option B) (R : A -> B -> Prop) : (forall a b, f a = Some b -> R a b) -> forall l m, oall f l = Some m -> Forall2 R l m.
Proof.
  intros Hf l. induction l as [|a l IH]; intros m H; cbn [oall] in H; [injection H as <-; constructor|].
  destruct (f a) as [b|] eqn:Hb; [|discriminate H]. destruct (oall f l) as [n|]; [|discriminate H]. injection H as <-. constructor; auto.
Qed.
Lemma lower_variant_as sc resolve r v : unshadowed sc -> lower_variant resolve r = Some v -> variant_as sc resolve r v.
Proof.
  intros Hsc H. unfold lower_variant in H. destruct (lower_attrs (rv_attrs r)) as [a|] eqn:Ha; [|discriminate H].
  destruct (lower_vbody resolve (rv_fields r)) as [b|] eqn:Hb; [|discriminate H]. injection H as <-.
  split; [reflexivity|]. split; [apply options_lower; exact Ha|]. cbn [v_body]. unfold lower_vbody in Hb.
  destruct (rv_fields r) as [|[|f [|g l]]|l] eqn:Hr; try discriminate Hb.
  - injection Hb as <-. reflexivity.
  - injection Hb as <-. exists []. split; [right; split; reflexivity|constructor].
  - destruct (lower_attrs (rf_attrs f)) as [c|] eqn:Hc; [|discriminate Hb]. destruct (lower_type resolve (rf_ty f)) as [t|] eqn:Ht; [|discriminate Hb].
    injection Hb as <-. exists f, c. split; [reflexivity|]. split; [apply options_lower; exact Hc|]. split; [reflexivity|apply lower_type_as; assumption].
  - destruct (oall (lower_field resolve) l) as [m|] eqn:Hm; [|discriminate Hb]. injection Hb as <-. exists l. split; [left; reflexivity|].
    apply (oall_forall2 (lower_field resolve)); [|exact Hm]. intros r' f' Hf. apply lower_field_as; assumption.
Qed.
Theorem lowered_as : forall sc resolve d i t, unshadowed sc -> lower_item resolve d i = Some t -> defined_as sc resolve i t.
Proof.
  intros sc resolve d i t Hsc H. unfold lower_item in H. destruct (lower_attrs (ri_attrs i)) as [a|] eqn:Ha; [|discriminate H].
  apply options_lower in Ha. destruct (ri_data i) as [fs|vs|] eqn:Hi; [| |discriminate H].
  - destruct (oall (lower_field resolve) (fields_of fs)) as [m|] eqn:Hm; [|discriminate H]. injection H as <-.
    split; [reflexivity|]. split; [exact Ha|]. exists fs. split; [exact Hi|]. apply (oall_forall2 (lower_field resolve)); [|exact Hm]. intros r f Hf. apply lower_field_as; assumption.
  - destruct (oall (lower_variant resolve) vs) as [m|] eqn:Hm; [|discriminate H]. injection H as <-.
    split; [reflexivity|]. split; [exact Ha|]. exists vs. split; [exact Hi|]. apply (oall_forall2 (lower_variant resolve)); [|exact Hm]. intros r f Hf. apply lower_variant_as; assumption.
Qed.
Theorem primitive_wrapper : forall i, derive_primitive i = MOk tt <-> wrapper i.
Proof.
  intros i. unfold derive_primitive, wrapper. split.
  - destruct (ri_data i) as [[|[|f fs]|]| |]; try discriminate. destruct (rf_ty f) as [q| |] eqn:Hq; try discriminate. intros _. eauto.
  - intros (f & fs & q & -> & ->). reflexivity.
Qed.
Theorem derived_as : forall sc resolve d i, unshadowed sc ->
  derive_de i = MOk tt -> named_fields i -> (forall p, resolve p <> None) ->
  exists t, lower_item resolve d i = Some t /\ defined_as sc resolve i t.
Proof.
  intros sc resolve d i Hsc H Hn Hr. destruct (derived_modelled resolve d i H Hn Hr) as (t & Ht & _). exists t. split; [exact Ht|]. apply (lowered_as sc resolve d); assumption.
Qed.

(** ** Visitors *)

Lemma cut_unique a b x y : no_underscore a -> no_underscore b ->
  a +++ String "_" x = b +++ String "_" y -> a = b /\ x = y.
Proof.
  revert b. induction a as [|c a IH]; intros [|e b] Ha Hb H.
  - injection H as H. split; [reflexivity|exact H].
  - injection H as H1 H2. destruct Hb as [Hb _]. exfalso. apply Hb. symmetry. exact H1.
  - injection H as H1 H2. destruct Ha as [Ha _]. exfalso. apply Ha. exact H1.
  - injection H as H1 H2. subst e. destruct Ha as [_ Ha], Hb as [_ Hb]. destruct (IH b Ha Hb H2) as [-> ->]. split; reflexivity.
Qed.

Lemma cut_none a b x : no_underscore b -> a +++ String "_" x = b -> False.
Proof.
  revert b. induction a as [|c a IH]; intros [|e b] Hb H; try discriminate H.
  - injection H as H1 H2. destruct Hb as [Hb _]. apply Hb. symmetry. exact H1.
  - injection H as H1 H2. destruct Hb as [_ Hb]. exact (IH b Hb H2).
Qed.

(** The form of a visitor's name: attribute mark, prefix, label, path. *)
Lemma visitor_form camel a label k v : visitor_for camel a label k = Some v ->
  exists s, v = (if ya_attribute a then "Attribute_" else "")
      +++ (match ya_prefix a with Some q => camel q +++ "_" | None => "" end)
      +++ camel (dots label) +++ "_" +++ s /\
    (s = visited_path k /\ ya_attribute a = true \/ s = "" /\ visited_path k = "" \/ s = "" /\ ya_attribute a = false).
Proof.
  unfold visitor_for, visitor_ident. intros H.
  assert (B : forall k', match k' with
    | KSimple _ => Some ((if ya_attribute a then "Attribute_" else "")
      +++ (match ya_prefix a with Some q => camel q +++ "_" | None => "" end)
      +++ camel (dots label) +++ "_" +++ "")
    | KUser p => if ya_attribute a then Some ((if ya_attribute a then "Attribute_" else "")
      +++ (match ya_prefix a with Some q => camel q +++ "_" | None => "" end)
      +++ camel (dots label) +++ "_" +++ path_text p) else None
    | _ => None
    end = Some v -> match k' with KUser p => visited_path k = path_text p | KSimple _ => visited_path k = "" | _ => False end ->
    exists s, v = (if ya_attribute a then "Attribute_" else "")
      +++ (match ya_prefix a with Some q => camel q +++ "_" | None => "" end)
      +++ camel (dots label) +++ "_" +++ s /\
    (s = visited_path k /\ ya_attribute a = true \/ s = "" /\ visited_path k = "" \/ s = "" /\ ya_attribute a = false)).
  { intros [s'|?|?|p] HB HV; try contradiction.
    - injection HB as <-. exists "". split; [reflexivity|]. right. left. split; [reflexivity|exact HV].
    - destruct (ya_attribute a); [|discriminate HB]. injection HB as <-. exists (path_text p).
      split; [reflexivity|]. left. rewrite HV. split; reflexivity. }
  destruct k as [s|k'|k'|p].
  - apply (B (KSimple s)); [exact H|reflexivity].
  - destruct k' as [s|?|?|p]; try discriminate H; [apply (B (KSimple s))|apply (B (KUser p))]; try exact H; reflexivity.
  - destruct k' as [s|?|?|p]; try discriminate H; [apply (B (KSimple s))|apply (B (KUser p))]; try exact H; reflexivity.
  - apply (B (KUser p)); [exact H|reflexivity].
Qed.

Lemma sapp_nil (s : string) : "" +++ s = s.
Proof. reflexivity. Qed.
Lemma sapp_assoc (a b c : string) : (a +++ b) +++ c = a +++ (b +++ c).
Proof. induction a as [|x a IH]; cbn; [reflexivity|]. rewrite <- IH. reflexivity. Qed.

Theorem visitors_distinct : forall camel a1 l1 k1 v1 a2 l2 k2 v2,
  visitor_for camel a1 l1 k1 = Some v1 -> visitor_for camel a2 l2 k2 = Some v2 ->
  calm_camel camel a1 l1 k1 -> calm_camel camel a2 l2 k2 ->
  distinct_by (fun l => camel (dots l)) l1 l2 ->
  (forall p q, ya_prefix a1 = Some p -> ya_prefix a2 = Some q -> distinct_by camel p q) ->
  appearance a1 l1 <> appearance a2 l2 -> v1 <> v2.
Proof.
  intros camel a1 l1 k1 v1 a2 l2 k2 v2 H1 H2 [L1 [P1 K1]] [L2 [P2 K2]] DL DP HA E. apply HA. clear HA.
  apply visitor_form in H1. destruct H1 as [s1 [F1 S1]].
  apply visitor_form in H2. destruct H2 as [s2 [F2 S2]].
  assert (N1 : no_underscore s1) by (destruct S1 as [[-> _]|[[-> _]|[-> _]]]; [exact K1|exact I|exact I]).
  assert (N2 : no_underscore s2) by (destruct S2 as [[-> _]|[[-> _]|[-> _]]]; [exact K2|exact I|exact I]).
  rewrite F1, F2 in E. clear F1 F2 v1 v2. unfold appearance.
  assert (NA : no_underscore "Attribute") by (cbn; repeat split; discriminate).
  assert (EA : forall x, "Attribute_" +++ x = "Attribute" +++ String "_" x) by reflexivity.
  assert (EU : forall x, "_" +++ x = String "_" x) by reflexivity.
  (* two names: L_s and P_L_s *)
  assert (Two : forall p x y s t, no_underscore p -> no_underscore y -> no_underscore t ->
             p +++ String "_" (x +++ String "_" s) = y +++ String "_" t -> False).
  { intros p x y s t Hp Hy Ht H. destruct (cut_unique _ _ _ _ Hp Hy H) as [_ H']. exact (cut_none _ _ _ Ht H'). }
  assert (Same : forall o1 o2, o1 = ya_prefix a1 -> o2 = ya_prefix a2 ->
    (match o1 with Some q => camel q +++ "_" | None => "" end) +++ camel (dots l1) +++ "_" +++ s1 =
    (match o2 with Some q => camel q +++ "_" | None => "" end) +++ camel (dots l2) +++ "_" +++ s2 ->
    o1 = o2 /\ l1 = l2).
  { intros [p|] [q|] Hp Hq H; rewrite ?sapp_assoc, ?sapp_nil, ?EU in H.
    - destruct (P1 p (eq_sym Hp)) as [Np _]. destruct (P2 q (eq_sym Hq)) as [Nq _].
      destruct (cut_unique _ _ _ _ Np Nq H) as [Ep H'].
      destruct (cut_unique _ _ _ _ L1 L2 H') as [El _].
      rewrite (DP p q (eq_sym Hp) (eq_sym Hq) Ep). split; [reflexivity|exact (DL El)].
    - exfalso. destruct (P1 p (eq_sym Hp)) as [Np _]. exact (Two _ _ _ _ _ Np L2 N2 H).
    - exfalso. destruct (P2 q (eq_sym Hq)) as [Nq _]. symmetry in H. exact (Two _ _ _ _ _ Nq L1 N1 H).
    - destruct (cut_unique _ _ _ _ L1 L2 H) as [El _]. split; [reflexivity|exact (DL El)]. }
  (* an element's name is no attribute's *)
  assert (Mixed : forall o1 o2 b1 b2 x1 x2 t1 t2,
    (forall p, o1 = Some p -> no_underscore (camel p) /\ camel p <> "Attribute") ->
    no_underscore x1 -> no_underscore x2 -> no_underscore t1 -> no_underscore t2 -> b1 = x1 -> b2 = x2 ->
    t1 = "" ->
    (match o1 with Some q => camel q +++ "_" | None => "" end) +++ x1 +++ "_" +++ t1 =
    "Attribute_" +++ (match o2 with Some q => camel q +++ "_" | None => "" end) +++ x2 +++ "_" +++ t2 -> False).
  { intros [p|] o2 b1 b2 x1 x2 t1 t2 HP X1 X2 T1 T2 _ _ Et H; rewrite EA in H.
    - rewrite sapp_assoc, !EU in H. destruct (HP p eq_refl) as [Np Nn].
      destruct (cut_unique _ _ _ _ Np NA H) as [Hc _]. exact (Nn Hc).
    - rewrite sapp_nil, !EU in H. subst t1.
      destruct (cut_unique _ _ _ _ X1 NA H) as [_ H'].
      destruct o2 as [q|]; [rewrite sapp_assoc, EU in H'|rewrite sapp_nil in H']; symmetry in H'; exact (cut_none _ _ _ T1 H'). }
  destruct (ya_attribute a1) eqn:A1, (ya_attribute a2) eqn:A2.
  - rewrite !EA in E. destruct (cut_unique _ _ _ _ NA NA E) as [_ E'].
    destruct (Same _ _ eq_refl eq_refl E') as [-> ->]. reflexivity.
  - exfalso. symmetry in E. rewrite sapp_nil in E.
    refine (Mixed (ya_prefix a2) (ya_prefix a1) _ _ _ _ s2 s1 P2 L2 L1 N2 N1 eq_refl eq_refl _ E).
    destruct S2 as [[_ S2]|[[S2 _]|[S2 _]]]; [discriminate S2|exact S2|exact S2].
  - exfalso. rewrite sapp_nil in E.
    refine (Mixed (ya_prefix a1) (ya_prefix a2) _ _ _ _ s1 s2 P1 L1 L2 N1 N2 eq_refl eq_refl _ E).
    destruct S1 as [[_ S1]|[[S1 _]|[S1 _]]]; [discriminate S1|exact S1|exact S1].
  - rewrite !sapp_nil in E. destruct (Same _ _ eq_refl eq_refl E) as [-> ->]. reflexivity.
Qed.
