(** * Content of a type among content of others (used by the round trips with
      flattened fields). *)
From Verif Require Import Str Num Xml XmlText Reader Schema De SpecTree SpecText SpecNum SpecTyped SpecStruct SpecSer SpecValue
  SpecEnc SpecRound SpecRoundFlat TreeFacts TreeProofs TextProofs ValueProofs StructProofs StructReads EncProofs SerProofs
  RoundNames RoundTexts RoundCore SpecAlike InsertProofs AlikeTrees RewriteProofs.
Open Scope list_scope.

(** ** Types that share an element *)
Lemma shares_trans : forall E a b c, shares E a b -> shares E b c -> shares E a c.
Proof.
  intros E a b c [->|H1] [->|H2]; [left; reflexivity|right; assumption..|right; eapply sp_deeper; eassumption].
Qed.
Lemma takes_spliced : forall E id id' l, takes E id l -> Spliced E id id' -> takes E id' l.
Proof.
  intros E id id' l [H1 H2] Hs. split.
  - intros td Htd. apply (H2 id' td Hs Htd).
  - intros id'' td Hs' Htd. apply (H2 id'' td); [eapply sp_deeper; eassumption|exact Htd].
Qed.
Lemma claims_shares : forall E id id' l, shares E id id' -> claims_attr E id' l -> claims_attr E id l.
Proof. intros E id id' l H (id'' & td & Hs & Hr). exists id'', td. split; [eapply shares_trans; eassumption|exact Hr]. Qed.

(** ** Trees that a type has no use for *)
Definition ignored (E : env) (id : nat) (k : node) : Prop :=
  forall id' td, shares E id id' -> nth_error E id' = Some td ->
  match t_body td with
  | DStruct fs =>
      match k with
      | Elem n _ _ _ => forall f, In f fs -> elem_field f -> flabel (t_attrs td) f <> elabel n
      | Txt _ => forall f, In f fs -> ya_text (f_attrs f) = false
      end
  | DEnum vs _ => alien vs k
  | DPrim _ => False
  end.

Lemma ignored_shares : forall E id id' k, shares E id id' -> ignored E id k -> ignored E id' k.
Proof. intros E id id' k Hs H id'' td Hs' Htd. apply (H id'' td); [eapply shares_trans; eassumption|exact Htd]. Qed.

Lemma elabel_alike : forall n n', same_expanded n n' -> elabel n = elabel n'.
Proof. intros n n' [H1 H2]. unfold elabel. rewrite H1, H2. reflexivity. Qed.

Lemma ignored_alike : forall E id k k', AlikeTree k k' -> ignored E id k -> ignored E id k'.
Proof.
  intros E id k k' Ha H id' td Hs Htd. specialize (H id' td Hs Htd). destruct (t_body td) as [fs|vs d|p].
  - inversion Ha as [|n a m ks n' a' m' ks' Hn _ _]; subst; [exact H|]. intros f Hin Hf. rewrite <- (elabel_alike n n' Hn). apply H; assumption.
  - eapply alien_alike; eassumption.
  - exact H.
Qed.

Section Reread.
  Variable B : nsmap.

  Lemma walien_reread : forall vs w, walien vs w -> forall st, Neat B st w -> forall k, In k (rkid st w) -> alien vs k.
  Proof.
    intros vs w H. induction H as [s Hs|s Hs|n a m ks Hn Hk IH]; intros st Hneat k Hin; cbn [rkid] in Hin.
    - inversion Hneat as [? ? Hc| |]; subst. destruct Hc as [Hc| ->]; [|destruct Hin]. rewrite (clean_node _ Hc) in Hin. destruct Hin as [<-|[]].
      constructor. destruct Hs as [->|Hs]; [|exact Hs]. exfalso. apply (clean_nonempty _ Hc). reflexivity.
    - inversion Hneat as [|? ? Hc _|]; subst. rewrite (clean_node _ Hc) in Hin. destruct Hin as [<-|[]].
      constructor. destruct Hs as [->|Hs]; [|exact Hs]. exfalso. apply (clean_nonempty _ Hc). reflexivity.
    - destruct Hin as [<-|[]]. inversion Hneat as [| |? ? ? ? ? _ _ _ _ _ _ Hnt Hks]; subst. rewrite reread_elem.
      rewrite reread_few; [|left; reflexivity|exact Hnt]. rewrite empty_node. cbn [app]. constructor.
      + rewrite local_rname. exact Hn.
      + intros c Hc. apply in_flat_map in Hc. destruct Hc as (w & Hw & Hc). apply (IH w Hw _ (Hks w Hw) c Hc).
  Qed.
End Reread.

Lemma ignores_reread : forall E id w st k, Neat (bindings E) st w -> Ignores E id w -> In k (rkid st w) -> ignored E id k.
Proof.
  intros E id w st k Hneat H Hin id' td Hs Htd. specialize (H id' td Hs Htd). destruct (t_body td) as [fs|vs d|p].
  - destruct w as [n a m ks|s|s]; cbn [rkid] in Hin.
    + destruct Hin as [<-|[]]. rewrite reread_elem. inversion Hneat as [| |? ? ? ? ? _ _ _ Hl _ _ _ _]; subst. intros f Hf He. rewrite Hl. apply H; assumption.
    + inversion Hneat as [? ? Hc| |]; subst. destruct Hc as [Hc| ->]; [|destruct Hin]. rewrite (clean_node _ Hc) in Hin. destruct Hin as [<-|[]].
      destruct H as [->|H]; [|exact H]. exfalso. apply (clean_nonempty _ Hc). reflexivity.
    + inversion Hneat as [|? ? Hc _|]; subst. rewrite (clean_node _ Hc) in Hin. destruct Hin as [<-|[]].
      destruct H as [->|H]; [|exact H]. exfalso. apply (clean_nonempty _ Hc). reflexivity.
  - eapply walien_reread; eassumption.
  - exact H.
Qed.

(** ** Content with insertions *)
Inductive Ctx (P : node -> Prop) : list node -> list node -> Prop :=
| cx_nil : Ctx P [] []
| cx_keep : forall k k' l l', AlikeTree k k' -> Ctx P l l' -> Ctx P (k :: l) (k' :: l')
| cx_more : forall k l l', P k -> Ctx P l l' -> Ctx P l (k :: l').

Lemma ctx_mono : forall (P Q : node -> Prop) l l', (forall k, In k l' -> P k -> Q k) -> Ctx P l l' -> Ctx Q l l'.
Proof.
  intros P Q l l' H Hc. induction Hc as [|k k' l l' Hk Hc IH|k l l' Hk Hc IH].
  - constructor.
  - constructor; [exact Hk|apply IH; intros; apply H; [right|]; assumption].
  - apply cx_more; [apply H; [left; reflexivity|exact Hk]|apply IH; intros; apply H; [right|]; assumption].
Qed.
Lemma ctx_refl : forall P l, Ctx P l l.
Proof. intros P l. induction l; [constructor|]. apply cx_keep; [apply alike_refl|assumption]. Qed.
Lemma ctx_all : forall (P : node -> Prop) l, (forall k, In k l -> P k) -> Ctx P [] l.
Proof. intros P l. induction l as [|k l IH]; intros H; [constructor|]. apply cx_more; [apply H; left; reflexivity|apply IH; intros; apply H; right; assumption]. Qed.
Lemma ctx_none : forall (P : node -> Prop) l l', (forall k, ~ P k) -> Ctx P l l' -> Forall2 AlikeTree l l'.
Proof. intros P l l' H Hc. induction Hc as [|k k' l l' Hk Hc IH|k l l' Hk Hc IH]; [constructor|constructor; assumption|destruct (H k Hk)]. Qed.
Lemma ctx_app : forall P a a' b b', Ctx P a a' -> Ctx P b b' -> Ctx P (a ++ b) (a' ++ b').
Proof. intros P a a' b b' H Hb. induction H; [exact Hb|cbn [app]; constructor; assumption|cbn [app]; apply cx_more; assumption]. Qed.
Lemma ctx_split : forall P a b l, Ctx P (a ++ b) l -> exists a' b', l = a' ++ b' /\ Ctx P a a' /\ Ctx P b b'.
Proof.
  intros P a b l H. remember (a ++ b) as c eqn:Hc. revert a b Hc. induction H as [|k k' l l' Hk Hc IH|k l l' Hk Hc IH]; intros a b He.
  - symmetry in He. apply app_eq_nil in He. destruct He as [-> ->]. exists [], []. split; [reflexivity|]. split; constructor.
  - destruct a as [|c a]; cbn [app] in He.
    + subst b. exists [], (k' :: l'). split; [reflexivity|]. split; [constructor|]. constructor; assumption.
    + injection He as <- ->. destruct (IH a b eq_refl) as (a' & b' & -> & H1 & H2). exists (k' :: a'), b'.
      split; [reflexivity|]. split; [constructor; assumption|exact H2].
  - destruct (IH a b He) as (a' & b' & -> & H1 & H2). exists (k :: a'), b'. split; [reflexivity|]. split; [apply cx_more; assumption|exact H2].
Qed.
(** Part by part; what comes last goes to the last part. *)
Lemma ctx_concat : forall P a ls l, Ctx P (concat (a :: ls)) l ->
  exists ks, l = concat ks /\ Forall2 (Ctx P) (a :: ls) ks.
Proof.
  intros P a ls. revert a. induction ls as [|b ls IH]; intros a l H; cbn [concat] in H.
  - rewrite app_nil_r in H. exists [l]. cbn [concat]. rewrite app_nil_r. split; [reflexivity|]. constructor; [exact H|constructor].
  - apply ctx_split in H. destruct H as (a' & b' & -> & H1 & H2). destruct (IH b b' H2) as (ks & -> & H3).
    exists (a' :: ks). split; [reflexivity|]. constructor; assumption.
Qed.
Lemma ctx_alike : forall (P : node -> Prop) l l' l'', (forall k k', AlikeTree k k' -> P k -> P k') -> Ctx P l l' -> Forall2 AlikeTree l' l'' -> Ctx P l l''.
Proof.
  intros P l l' l'' HP H. revert l''. induction H as [|k k' l l' Hk Hc IH|k l l' Hk Hc IH]; intros l'' Hf; inversion Hf; subst.
  - constructor.
  - constructor; [eapply alike_trans; eassumption|apply IH; assumption].
  - apply cx_more; [eapply HP; eassumption|apply IH; assumption].
Qed.
(** Everything belongs to part [i], or is to be ignored. *)
Lemma ctx_pick : forall P L ks i, i < List.length ks ->
  (forall j k, nth_error ks j = Some k -> Ctx P (if Nat.eqb j i then L else []) k) -> Ctx P L (concat ks).
Proof.
  intros P L. induction ks as [|k ks IH]; intros i Hi H; [cbn in Hi; lia|]. cbn [concat].
  pose proof (H 0 k eq_refl) as H0. destruct i as [|i]; cbn [Nat.eqb] in H0.
  - rewrite <- (app_nil_r L). apply ctx_app; [exact H0|].
    assert (Hr : forall j c, nth_error ks j = Some c -> Ctx P [] c) by (intros j c Hj; apply (H (S j) c Hj)).
    clear -Hr. induction ks as [|c ks IH]; [constructor|]. cbn [concat]. apply (ctx_app P [] c []); [apply (Hr 0); reflexivity|].
    apply IH. intros j d Hj. apply (Hr (S j) d Hj).
  - change L with ([] ++ L). apply ctx_app; [exact H0|]. apply (IH i); [cbn in Hi; lia|]. intros j c Hj. apply (H (S j) c Hj).
Qed.
Lemma ctx_in : forall P l l' k', Ctx P l l' -> In k' l' -> P k' \/ exists k, In k l /\ AlikeTree k k'.
Proof.
  intros P l l' k' H. induction H as [|k c l l' Hk Hc IH|k l l' Hk Hc IH]; intros Hin; [destruct Hin| |].
  - destruct Hin as [<-|Hin]; [right; exists k; split; [left; reflexivity|exact Hk]|]. destruct (IH Hin) as [H|(d & H1 & H2)]; [left; exact H|].
    right. exists d. split; [right; exact H1|exact H2].
  - destruct Hin as [<-|Hin]; [left; exact Hk|apply IH; exact Hin].
Qed.
(** Filters that keep the insertions. *)
Lemma ctx_filter : forall (P : node -> Prop) p l l', (forall k k', AlikeTree k k' -> p k = p k') -> (forall k, P k -> p k = true) ->
  Ctx P l l' -> Ctx P (filter p l) (filter p l').
Proof.
  intros P p l l' Ha Hp H. induction H as [|k c l l' Hk Hc IH|k l l' Hk Hc IH]; cbn [filter].
  - constructor.
  - rewrite (Ha k c Hk). destruct (p c); [constructor; assumption|exact IH].
  - rewrite (Hp k Hk). apply cx_more; assumption.
Qed.
(** Reading in order, when insertions give nothing. *)
Lemma ctx_collect : forall A (P : node -> Prop) (g : node -> outcome (list A)) l l', Ctx P l l' ->
  (forall k, P k -> g k = OOk []) -> (forall k k', In k l -> In k' l' -> AlikeTree k k' -> g k' = g k) -> ocollect g l' = ocollect g l.
Proof.
  intros A P g l l' H. induction H as [|k c l l' Hk Hc IH|k l l' Hk Hc IH]; intros Hg Ha; [reflexivity| |]; rewrite !ocollect_cons.
  - rewrite (Ha k c (or_introl eq_refl) (or_introl eq_refl) Hk), IH; [reflexivity|exact Hg|]. intros; apply Ha; [right|right|]; assumption.
  - rewrite (Hg k Hk), IH; [|exact Hg|intros; apply Ha; [|right|]; assumption]. destruct (ocollect g l); reflexivity.
Qed.
Lemma ctx_fold : forall A (P : node -> Prop) (g : A -> node -> outcome A) l l', Ctx P l l' ->
  (forall a k, P k -> g a k = OOk a) -> (forall a k k', In k l -> In k' l' -> AlikeTree k k' -> g a k' = g a k) ->
  forall a, ofold g l' a = ofold g l a.
Proof.
  intros A P g l l' H. induction H as [|k c l l' Hk Hc IH|k l l' Hk Hc IH]; intros Hg Ha a; [reflexivity| |]; cbn [ofold].
  - rewrite (Ha a k c (or_introl eq_refl) (or_introl eq_refl) Hk). destruct (g a k); try reflexivity. cbn [obind]. apply IH; [exact Hg|].
    intros; apply Ha; [right|right|]; assumption.
  - rewrite (Hg a k Hk). cbn [obind]. apply IH; [exact Hg|]. intros; apply Ha; [|right|]; assumption.
Qed.

Lemma is_left_alike : forall ra fs k k', AlikeTree k k' -> is_left ra fs k = is_left ra fs k'.
Proof.
  intros ra fs k k' H. inversion H as [|n a m ks n' a' m' ks' Hn _ _]; subst; [reflexivity|]. cbn [is_left].
  rewrite (field_for_alike ra fs n n' Hn). reflexivity.
Qed.

(** Lists of lists, by position. *)
Lemma collect_concat : forall A B (g : A -> outcome (list B)) ls rs, List.length rs = List.length ls ->
  (forall j l r, nth_error ls j = Some l -> nth_error rs j = Some r -> ocollect g l = OOk r) ->
  ocollect g (concat ls) = OOk (concat rs).
Proof.
  intros A B g. induction ls as [|l ls IH]; intros [|r rs] Hl H; try discriminate; [reflexivity|]. cbn [concat].
  rewrite ocollect_app, (H 0 l r eq_refl eq_refl), (IH rs); [reflexivity|cbn in Hl; lia|]. intros j a b Ha Hb. apply (H (S j)); assumption.
Qed.
Lemma filter_concat : forall A (p : A -> bool) ls, filter p (concat ls) = concat (map (filter p) ls).
Proof. intros A p. induction ls as [|l ls IH]; [reflexivity|]. cbn [concat map]. rewrite filter_app, IH. reflexivity. Qed.
Lemma values_app : forall l a b, values_of l (a ++ b) = values_of l a ++ values_of l b.
Proof. intros l a b. unfold values_of. rewrite filter_app, map_app. reflexivity. Qed.
Lemma values_other : forall l a, (forall b, In b a -> n_local (at_name b) <> l) -> values_of l a = [].
Proof.
  intros l a. unfold values_of. induction a as [|b a IH]; intros H; [reflexivity|]. cbn [filter].
  destruct (String.eqb_spec (n_local (at_name b)) l) as [He|_]; [exfalso; apply (H b (or_introl eq_refl) He)|].
  apply IH. intros c Hc. apply H. right. exact Hc.
Qed.
Lemma values_member : forall l a t, In t (values_of l a) -> exists b, In b a /\ n_local (at_name b) = l /\ at_value b = t.
Proof.
  intros l a t H. unfold values_of in H. apply in_map_iff in H. destruct H as (b & <- & H). apply filter_In in H. destruct H as [H1 H2].
  apply String.eqb_eq in H2. eauto.
Qed.
Lemma values_pick : forall l ls i a, nth_error ls i = Some a ->
  (forall j b c, j <> i -> nth_error ls j = Some b -> In c b -> n_local (at_name c) <> l) ->
  values_of l (concat ls) = values_of l a.
Proof.
  intros l. induction ls as [|b ls IH]; intros i a Hi H; [destruct i; discriminate|]. cbn [concat]. rewrite values_app.
  destruct i as [|i]; cbn [nth_error] in Hi.
  - injection Hi as ->. rewrite (values_other l (concat ls)); [apply app_nil_r|]. intros c Hc. apply in_concat in Hc. destruct Hc as (d & Hd & Hc).
    apply In_nth_error in Hd. destruct Hd as [j Hj]. apply (H (S j) d c); [discriminate|exact Hj|exact Hc].
  - rewrite (values_other l b).
    + apply (IH i a Hi). intros j d c Hj. apply (H (S j)). congruence.
    + intros c Hc. apply (H 0 b c); [discriminate|reflexivity|exact Hc].
Qed.
Lemma values_nowhere : forall l ls, (forall j b c, nth_error ls j = Some b -> In c b -> n_local (at_name c) <> l) -> values_of l (concat ls) = [].
Proof.
  intros l ls H. apply values_other. intros c Hc. apply in_concat in Hc. destruct Hc as (d & Hd & Hc).
  apply In_nth_error in Hd. destruct Hd as [j Hj]. apply (H j d c Hj Hc).
Qed.

Lemma nodup_concat : forall A B (g : A -> B) ls,
  (forall j l, nth_error ls j = Some l -> NoDup (map g l)) ->
  (forall i j a b c d, i <> j -> nth_error ls i = Some a -> nth_error ls j = Some b -> In c a -> In d b -> g c <> g d) ->
  NoDup (map g (concat ls)).
Proof.
  intros A B g. induction ls as [|l ls IH]; intros H1 H2; [constructor|]. cbn [concat]. rewrite map_app.
  assert (Hl : NoDup (map g l)) by (apply (H1 0); reflexivity).
  assert (Hr : NoDup (map g (concat ls))).
  { apply IH; [intros j a Ha; apply (H1 (S j) a Ha)|]. intros i j a b c d Hij Ha Hb. apply (H2 (S i) (S j)); [congruence|exact Ha|exact Hb]. }
  assert (Hd : forall c d, In c l -> In d (concat ls) -> g c <> g d).
  { intros c d Hc Hin. apply in_concat in Hin. destruct Hin as (b & Hb & Hin). apply In_nth_error in Hb. destruct Hb as [j Hj].
    apply (H2 0 (S j) l b c d); [discriminate|reflexivity|exact Hj|exact Hc|exact Hin]. }
  clear -Hl Hr Hd. induction l as [|a l IH]; [exact Hr|]. cbn [map app] in *. inversion Hl as [|? ? Hn Hl']; subst. constructor.
  - intros Hin. apply in_app_or in Hin. destruct Hin as [Hin|Hin]; [apply Hn; exact Hin|].
    apply in_map_iff in Hin. destruct Hin as (d & Hg & Hin). apply (Hd a d (or_introl eq_refl) Hin). symmetry. exact Hg.
  - apply IH; [exact Hl'|]. intros c d Hc. apply Hd. right. exact Hc.
Qed.
