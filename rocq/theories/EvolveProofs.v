(** * Looser definitions keep documents readable (C54): proofs. *)
From Verif Require Import Str Num Xml XmlText Reader Schema De SpecRound SpecEvolve
  RunFacts ReaderProofs TreeFacts CleanProofs CompleteProofs CutProofs.
From Coq Require Import Lia.
Open Scope list_scope.

(** ** What one program returns, another one returns too *)
Definition clean_state (v : vstate) : Prop := forall e, In e (v_rest v) -> clean_event e.
Lemma rest_shrinks : forall A (p : prog A) v e, In e (v_rest (snd (vrun p v))) -> In e (v_rest v).
Proof.
  induction p as [a|m|m| |k IH|k IH|k IH]; intros v e H; cbn [vrun snd] in *; auto.
  - eapply IH; exact H.
  - unfold vnext in H. destruct (v_rest v) as [|e0 r] eqn:Hr; [apply IH in H; rewrite Hr in H; exact H|].
    destruct (bump (v_depth v) e0); cbn [snd v_rest] in H; [apply IH in H; cbn [v_rest] in H|]; right; exact H.
  - eapply IH; exact H.
Qed.
Lemma clean_after : forall A (p : prog A) v o v1, clean_state v -> vrun p v = (o, v1) -> clean_state v1.
Proof. intros A p v o v1 H Hr e He. apply H. eapply rest_shrinks with (p := p). rewrite Hr. exact He. Qed.

Definition up {A B} (R : A -> B -> Prop) (p : prog A) (q : prog B) : Prop := forall v a v1, clean_state v ->
  vrun p v = (OOk a, v1) -> exists b, vrun q v = (OOk b, v1) /\ R a b.

Lemma up_ret : forall A B (R : A -> B -> Prop) a b, R a b -> up R (Ret a) (Ret b).
Proof. intros A B R a b H v c v1 _ Hv. inversion Hv; subst. exists b. auto. Qed.
Lemma up_throw : forall A B (R : A -> B -> Prop) m q, up R (Throw m) q.
Proof. intros A B R m q v c v1 _ Hv. discriminate Hv. Qed.
Lemma up_crash : forall A B (R : A -> B -> Prop) m q, up R (Crash m) q.
Proof. intros A B R m q v c v1 _ Hv. discriminate Hv. Qed.
Lemma up_stuck : forall A B (R : A -> B -> Prop) q, up R Stuck q.
Proof. intros A B R q v c v1 _ Hv. discriminate Hv. Qed.
Lemma up_bind : forall A A' B B' (R : A -> A' -> Prop) (S : B -> B' -> Prop) p q f g,
  up R p q -> (forall a a', R a a' -> up S (f a) (g a')) -> up S (bind p f) (bind q g).
Proof.
  intros A A' B B' R S p q f g Hp Hf v b v1 Hc H. apply bind_ok in H. destruct H as (a & v' & H1 & H2).
  destruct (Hp _ _ _ Hc H1) as (a' & H3 & Hr). rewrite vrun_bind, H3.
  eapply Hf; [exact Hr| |exact H2]. eapply clean_after; [exact Hc|exact H1].
Qed.
Lemma up_same : forall A (p : prog A), up eq p p.
Proof. intros A p v a v1 _ H. exists a. auto. Qed.
(** The same steps first. *)
Lemma up_then : forall A B B' (S : B -> B' -> Prop) (p : prog A) f g, (forall a, up S (f a) (g a)) -> up S (bind p f) (bind p g).
Proof. intros A B B' S p f g H. apply up_bind with (R := eq); [apply up_same|]. intros a a' <-. apply H. Qed.
Lemma up_depth : forall A B (R : A -> B -> Prop) f g, (forall d, up R (f d) (g d)) -> up R (Depth f) (Depth g).
Proof. intros A B R f g H v a v1 Hc Hv. cbn [vrun] in *. apply H; assumption. Qed.
Lemma up_next : forall A B (R : A -> B -> Prop) f g, (forall r, up R (f r) (g r)) -> up R (Next f) (Next g).
Proof.
  intros A B R f g H v a v1 Hc Hv. cbn [vrun] in *. destruct (vnext v) as [[r|] v'] eqn:Hn; [|discriminate].
  eapply H; [|exact Hv]. intros e He. apply Hc. unfold vnext in Hn. destruct (v_rest v) as [|e0 l] eqn:Hr.
  - inversion Hn; subst. rewrite Hr in He. exact He.
  - destruct (bump (v_depth v) e0); [|discriminate]. inversion Hn; subst. right. exact He.
Qed.
Lemma up_peek : forall A B (R : A -> B -> Prop) f g, (forall r, up R (f r) (g r)) -> up R (Peek f) (Peek g).
Proof. intros A B R f g H v a v1 Hc Hv. cbn [vrun] in *. apply H; assumption. Qed.
(** The event in front of a clean source is clean. *)
Lemma up_peek_ : forall A B (R : A -> B -> Prop) f g, (forall e, clean_event e -> up R (f e) (g e)) ->
  up R (bind peek_ f) (bind peek_ g).
Proof.
  intros A B R f g H v a v1 Hc Hv. rewrite vrun_peek_ in *. destruct (vpeek v) as [e|] eqn:Hp; [|discriminate].
  eapply H; [|exact Hc|exact Hv]. unfold vpeek in Hp. destruct (v_rest v) as [|e0 l] eqn:Hr.
  - destruct (v_fin v); [|discriminate]. inversion Hp. exact I.
  - inversion Hp; subst. apply Hc. rewrite Hr. left. reflexivity.
Qed.

Section Evolve.
  Variables (x : ext) (E E' : env).
  Hypothesis HE : looser E E'.
  Hypothesis HO : no_flattened_option E.

  Notation keptb := (kept_base x E E').

  (** ** Slots *)
  Definition slot1 (f f' : field) (s s' : slot) : Prop :=
    match s, s' with
    | SMany l, SMany l' => exists b, f_ty f = TVec b /\ kept_list x E E' b l l'
    | SOne o, SOne o' =>
        (forall b, f_ty f <> TVec b) /\
        match o, o' with
        | None, None => True
        | Some v, Some w => keptb (fbase (f_ty f)) v w
        | _, _ => False
        end
    | _, _ => False
    end.
  Inductive slots : list field -> list field -> list slot -> list slot -> Prop :=
  | slots_nil : slots [] [] [] []
  | slots_cons : forall f f' s s' fs fs' ss ss', slot1 f f' s s' -> slots fs fs' ss ss' ->
      slots (f :: fs) (f' :: fs') (s :: ss) (s' :: ss').

  Lemma kept_snoc : forall b l l' v w, kept_list x E E' b l l' -> keptb b v w -> kept_list x E E' b (l ++ [v]) (l' ++ [w]).
  Proof.
    intros b l. induction l as [|a l IH]; intros l' v w H Hv; inversion H; subst; cbn [app].
    - constructor; [exact Hv|constructor].
    - constructor; [assumption|]. apply IH; assumption.
  Qed.
  Lemma put_slot1 : forall f f' v w s s', keptb (fbase (f_ty f)) v w -> slot1 f f' s s' -> slot1 f f' (put_slot v s) (put_slot w s').
  Proof.
    intros f f' v w s s' Hv H. destruct s as [o|l], s' as [o'|l']; cbn [slot1 put_slot] in *; try contradiction.
    - destruct H as [H _]. split; [exact H|exact Hv].
    - destruct H as (b & Hb & Hl). exists b. split; [exact Hb|]. rewrite Hb in Hv. apply kept_snoc; assumption.
  Qed.
  Lemma upd_slots : forall g h fs fs' ss ss' i f f', slots fs fs' ss ss' ->
    nth_error fs i = Some f -> nth_error fs' i = Some f' ->
    (forall s s', slot1 f f' s s' -> slot1 f f' (g s) (h s')) -> slots fs fs' (upd i g ss) (upd i h ss').
  Proof.
    intros g h fs fs' ss ss' i f f' H. revert i. induction H as [|f0 f0' s s' fs fs' ss ss' H1 H2 IH]; intros i Hf Hf' Hg;
      [destruct i; constructor|].
    destruct i as [|i]; cbn [upd nth_error] in *.
    - inversion Hf; inversion Hf'; subst. constructor; [apply Hg; exact H1|exact H2].
    - constructor; [exact H1|]. apply IH; assumption.
  Qed.
  Lemma put_slots : forall fs fs' ss ss' i f f' v w, slots fs fs' ss ss' ->
    nth_error fs i = Some f -> nth_error fs' i = Some f' -> keptb (fbase (f_ty f)) v w ->
    slots fs fs' (upd i (put_slot v) ss) (upd i (put_slot w) ss').
  Proof. intros. eapply upd_slots; eauto. intros. apply put_slot1; assumption. Qed.

  (** ** Fields *)
  Lemma looser_base : forall f f', looser_field f f' -> fbase (f_ty f') = fbase (f_ty f).
  Proof. intros f f' (_ & _ & _ & _ & _ & [[H _]|(b & H1 & H2 & _)]); [congruence|]. rewrite H1, H2. reflexivity. Qed.
  Lemma looser_vec : forall f f' b, looser_field f f' -> (f_ty f' = TVec b <-> f_ty f = TVec b).
  Proof. intros f f' b (_ & _ & _ & _ & _ & [[H _]|(b' & H1 & H2 & _)]); [rewrite H; tauto|]. rewrite H1, H2. split; discriminate. Qed.

  Lemma init_slots : forall fs fs', Forall2 looser_field fs fs' ->
    slots fs fs' (map (fun f => init_slot (f_ty f)) fs) (map (fun f => init_slot (f_ty f)) fs').
  Proof.
    intros fs fs' H. induction H as [|f f' fs fs' H1 H2 IH]; cbn [map]; constructor; [|exact IH].
    destruct H1 as (_ & _ & _ & _ & _ & [[H _]|(b' & H1 & H3 & _)]).
    - rewrite H. destruct (f_ty f) eqn:Hf; cbn [init_slot slot1]; try (split; [congruence|exact I]).
      eexists. split; [exact Hf|constructor].
    - rewrite H1, H3. cbn. rewrite H1. split; [discriminate|exact I].
  Qed.

  Lemma find_same : forall ra fs fs' i ns l, Forall2 looser_field fs fs' ->
    match find_field ra fs i ns l with
    | Some (j, f) => exists k f', j = i + k /\ nth_error fs k = Some f /\ nth_error fs' k = Some f' /\
        looser_field f f' /\ find_field ra fs' i ns l = Some (j, f')
    | None => find_field ra fs' i ns l = None
    end.
  Proof.
    intros ra fs fs' i ns l H. revert i. induction H as [|f f' fs fs' H1 H2 IH]; intros i; cbn [find_field]; [reflexivity|].
    pose proof H1 as (Ha & Hb & Hc & Hd & _). unfold is_elem_field, field_ns. rewrite Ha, Hb, Hc, Hd.
    destruct (_ && _)%bool.
    - exists 0, f'. rewrite Nat.add_0_r. auto.
    - specialize (IH (S i)). destruct (find_field ra fs (S i) ns l) as [[j g]|]; [|exact IH].
      destruct IH as (k & g' & Hk & Hr). exists (S k), g'. split; [lia|]. exact Hr.
  Qed.

  Lemma text_slots : forall t fs fs' ss ss', clean t -> Forall2 looser_field fs fs' -> slots fs fs' ss ss' ->
    slots fs fs' (set_text t fs ss) (set_text t fs' ss').
  Proof.
    intros t fs fs' ss ss' Ht HF H. revert HF. induction H as [|f f' s s' fs fs' ss ss' H1 H2 IH]; intros HF; cbn [set_text]; [constructor|].
    inversion HF as [|? ? ? ? HL HF']; subst. constructor; [|apply IH; exact HF'].
    assert (He : is_empty t = false) by (destruct t; [destruct Ht as (_ & Ht & _); discriminate Ht|reflexivity]).
    destruct HL as (_ & _ & _ & _ & Hx & Hty). unfold set_text1. rewrite Hx, He. destruct (ya_text (f_attrs f)); [|exact H1].
    destruct Hty as [[Hty _]|(b & Hb & Hb' & _)].
    - rewrite Hty. destruct (f_ty f) as [[[]|]|[[]|]|b|b] eqn:Hf; try exact H1; cbn [slot1]; rewrite Hf; split; try discriminate; constructor.
    - rewrite Hb, Hb'. destruct b as [[]|]; try exact H1. cbn [slot1]. rewrite Hb. split; [discriminate|constructor].
  Qed.

  Lemma build_kept : forall tn tn' fs fs' ss ss' l, Forall2 looser_field fs fs' -> slots fs fs' ss ss' ->
    build x tn fs ss = Ok l -> exists l', build x tn' fs' ss' = Ok l' /\ kept_fields x E E' fs fs' l l'.
  Proof.
    intros tn tn' fs fs' ss ss' l HF H. revert l HF. induction H as [|f f' s s' fs fs' ss ss' H1 H2 IH]; intros l HF Hb; cbn [build] in *.
    - inversion Hb; subst. exists []. split; [reflexivity|constructor].
    - inversion HF as [|? ? ? ? HL HF']; subst. destruct (build1 x tn f s) as [v|] eqn:Hv; [|discriminate].
      destruct (build x tn fs ss) as [r|] eqn:Hr; [|discriminate]. cbn [rmap] in Hb. inversion Hb; subst. clear Hb.
      destruct (IH r HF' eq_refl) as (r' & Hr' & Hk).
      assert (H : exists w, build1 x tn' f' s' = Ok w /\ kept_fields x E E' (f :: fs) (f' :: fs') (v :: r) (w :: r')).
      { destruct HL as (_ & _ & _ & _ & _ & Hty). unfold build1 in *. destruct s as [o|m], s' as [o'|m']; cbn [slot1] in H1; try contradiction.
        - destruct H1 as [Hnv H1]. destruct Hty as [[Hty Hd]|(b & Hb & Hb' & Hd)].
          + destruct (f_ty f) as [b|b|b|b] eqn:Hf; rewrite Hty in *; cbn [fbase] in *.
            * destruct o as [a|], o' as [a'|]; try contradiction.
              { inversion Hv; subst. exists a'. split; [reflexivity|]. constructor; [|exact Hk]. rewrite Hf, Hty. constructor. exact H1. }
              { destruct (ya_default (f_attrs f)) as [d|] eqn:Hd0; [|discriminate]. destruct Hd as [Hd|Hd]; [discriminate|].
                rewrite Hd. inversion Hv; subst. eexists. split; [reflexivity|]. apply kf_default; [exact Hd0|exact Hd|exact Hk]. }
            * destruct o as [a|], o' as [a'|]; try contradiction; inversion Hv; subst; eexists; split; try reflexivity;
                (constructor; [|exact Hk]); rewrite Hf, Hty; constructor. exact H1.
            * exfalso. apply (Hnv b). reflexivity.
            * destruct o as [a|], o' as [a'|]; try contradiction; inversion Hv; subst; eexists; split; try reflexivity;
                (constructor; [|exact Hk]); rewrite Hf, Hty; constructor. exact H1.
          + rewrite Hb, Hb', Hd in *. cbn [fbase] in *. destruct o as [a|], o' as [a'|]; try contradiction; [|discriminate].
            inversion Hv; subst. eexists. split; [reflexivity|]. constructor; [|exact Hk]. rewrite Hb, Hb'. constructor. exact H1.
        - destruct H1 as (b & Hb & Hl). rewrite Hb in *. destruct Hty as [[Hty _]|(b' & Hb' & _)]; [|discriminate]. rewrite Hty.
          inversion Hv; subst. eexists. split; [reflexivity|]. constructor; [|exact Hk]. rewrite Hb, Hty. constructor. exact Hl. }
      destruct H as (w & Hw & Hkw). exists (w :: r'). rewrite Hw, Hr'. split; [reflexivity|exact Hkw].
  Qed.

  (** ** Programs *)
  Lemma nth_looser : forall id td, nth_error E id = Some td -> exists td', nth_error E' id = Some td' /\ looser_type td td'.
  Proof.
    unfold looser in HE. clear HO. revert HE. generalize E' as F'. generalize E as F. intros F F' H. induction H as [|t t' F F' H1 H2 IH]; intros id td Hn.
    - destruct id; discriminate.
    - destruct id as [|id]; cbn [nth_error] in *; [inversion Hn; subst; eauto|]. apply IH. exact Hn.
  Qed.

  Section Body.
    Variables (rec rec' : nat -> prog value) (fuel : nat).
    Hypothesis Hrec : forall id, up (kept x E E' id) (rec id) (rec' id).

    Lemma in_up : forall id s, up (kept x E E' id) (from_str_in rec id s) (from_str_in rec' id s).
    Proof.
      intros id s. unfold from_str_in. rewrite !(proj1 (run_view _ _ _)).
      destruct (vrun (rec id) (view (d_init (parse_text s)))) as [o v1] eqn:Hr. cbn [fst].
      destruct o as [a|m|m|]; [|apply up_throw|apply up_crash|apply up_stuck].
      assert (Hc : clean_state (view (d_init (parse_text s)))).
      { intros e He. rewrite view_init in He. cbn [v_rest] in He. apply filter_In in He. eapply parse_clean. apply He. }
      destruct (Hrec id _ _ _ Hc Hr) as (b & Hb & HR). rewrite Hb. cbn [fst]. apply up_ret. exact HR.
    Qed.
    Lemma attr_up : forall b t, up (keptb b) (visit_attr x E rec b t) (visit_attr x E' rec' b t).
    Proof.
      intros [s|id] t; cbn [visit_attr].
      - destruct (visit_simple x s t); [|apply up_throw]. apply up_ret. constructor.
      - destruct (nth_error E id) as [td|] eqn:Ht; [|apply up_crash].
        destruct (nth_looser _ _ Ht) as (td' & Ht' & Hn & _). rewrite Ht', Hn.
        intros v a v1 Hc Hv. destruct (in_up id _ v a v1 Hc Hv) as (b & Hb & HR). exists b. split; [exact Hb|]. constructor. exact HR.
    Qed.

    Section Fields.
      Variables fs fs' : list field.
      Hypothesis HF : Forall2 looser_field fs fs'.
      Notation Sl := (slots fs fs').

      Lemma items_up : forall i f f' l ss ss', nth_error fs i = Some f -> nth_error fs' i = Some f' -> Sl ss ss' ->
        up Sl (visit_attr_items x E rec (fbase (f_ty f)) i l ss) (visit_attr_items x E' rec' (fbase (f_ty f)) i l ss').
      Proof.
        intros i f f' l. induction l as [|t l IH]; intros ss ss' Hf Hf' HS; cbn [visit_attr_items]; [apply up_ret; exact HS|].
        eapply up_bind; [apply attr_up|]. intros a a' HR. apply IH; auto. eapply put_slots; eassumption.
      Qed.
      Lemma load_up : forall i f f' l ss ss', nth_error fs i = Some f -> nth_error fs' i = Some f' -> looser_field f f' -> Sl ss ss' ->
        up Sl (load_attr x E rec f i l ss) (load_attr x E' rec' f' i l ss').
      Proof.
        intros i f f' l. induction l as [|a l IH]; intros ss ss' Hf Hf' HL HS; cbn [load_attr]; [apply up_ret; exact HS|].
        apply up_bind with (R := Sl); [|intros; apply IH; assumption].
        pose proof HL as (-> & _). destruct (String.eqb _ _); [|apply up_ret; exact HS].
        assert (Hg : forall b, fbase (f_ty f) = b ->
          up Sl (let* v := visit_attr x E rec b (at_value a) in Ret (upd i (put_slot v) ss))
                (let* v := visit_attr x E' rec' b (at_value a) in Ret (upd i (put_slot v) ss'))).
        { intros b Hb. eapply up_bind; [apply attr_up|]. intros v w HR. apply up_ret. eapply put_slots; try eassumption. rewrite Hb. exact HR. }
        assert (Hs : fbase (f_ty f) = BSimple SString -> up Sl (Ret (upd i (put_slot (VStr (at_value a))) ss)) (Ret (upd i (put_slot (VStr (at_value a))) ss'))).
        { intros Hb. apply up_ret. eapply put_slots; try eassumption. rewrite Hb. constructor. }
        destruct HL as (_ & _ & _ & _ & _ & [[Hty _]|(b & Hb & Hb' & _)]).
        - rewrite Hty. pose proof (items_up i f f' (split_ws (at_value a)) ss ss' Hf Hf' HS) as Hi.
          destruct (f_ty f) as [[[]|]|b|b|b]; cbn [fbase] in *; auto.
        - rewrite Hb, Hb' in *. destruct b as [[]|]; cbn [fbase] in *; auto.
      Qed.
      Lemma loads_up : forall gs gs' i l ss ss', Forall2 looser_field gs gs' ->
        (forall k f, nth_error gs k = Some f -> nth_error fs (i + k) = Some f) ->
        (forall k f, nth_error gs' k = Some f -> nth_error fs' (i + k) = Some f) -> Sl ss ss' ->
        up Sl (load_attrs x E rec gs i l ss) (load_attrs x E' rec' gs' i l ss').
      Proof.
        intros gs gs' i l ss ss' H. revert i ss ss'. induction H as [|f f' gs gs' H1 H2 IH]; intros i ss ss' Hg Hg' HS;
          cbn [load_attrs]; [apply up_ret; exact HS|].
        apply up_bind with (R := Sl).
        - pose proof H1 as (_ & _ & -> & _). destruct (ya_attribute (f_attrs f)); [|apply up_ret; exact HS].
          apply load_up; auto; rewrite <- (Nat.add_0_r i); [apply Hg|apply Hg']; reflexivity.
        - intros s s' HS'. apply IH; auto; intros k g Hk; replace (S i + k) with (i + S k) by lia; [apply Hg|apply Hg']; exact Hk.
      Qed.
      Lemma flatten_up : forall gs gs' i t ss ss', Forall2 looser_field gs gs' ->
        (forall k f, nth_error gs k = Some f -> nth_error fs (i + k) = Some f) ->
        (forall k f, nth_error gs' k = Some f -> nth_error fs' (i + k) = Some f) ->
        (forall f b, In f gs -> ya_attribute (f_attrs f) = false -> ya_flatten (f_attrs f) = true -> f_ty f <> TOpt b) -> Sl ss ss' ->
        up Sl (visit_flatten rec gs i t ss) (visit_flatten rec' gs' i t ss').
      Proof.
        intros gs gs' i t ss ss' H. revert i ss ss'. induction H as [|f f' gs gs' H1 H2 IH]; intros i ss ss' Hg Hg' Ho HS;
          cbn [visit_flatten]; [apply up_ret; exact HS|].
        apply up_bind with (R := Sl).
        - pose proof H1 as (_ & _ & Ha & Hfl & _). rewrite Ha, Hfl.
          destruct (negb (ya_attribute (f_attrs f)) && ya_flatten (f_attrs f))%bool eqn:Hc; [|apply up_ret; exact HS].
          apply andb_prop in Hc. destruct Hc as [Hc1 Hc2]. apply Bool.negb_true_iff in Hc1.
          pose proof (Ho f) as Ho'. assert (Hnf : nth_error fs i = Some f) by (rewrite <- (Nat.add_0_r i); apply Hg; reflexivity).
          assert (Hnf' : nth_error fs' i = Some f') by (rewrite <- (Nat.add_0_r i); apply Hg'; reflexivity).
          destruct (f_ty f) as [[s|id]|b|b|b] eqn:Hf; try apply up_crash.
          2:{ exfalso. apply (Ho' b (or_introl eq_refl) Hc1 Hc2). reflexivity. }
          assert (Hput : forall v w, kept x E E' id v w -> Sl (upd i (fun _ => SOne (Some v)) ss) (upd i (fun _ => SOne (Some w)) ss')).
          { intros v w HR. eapply upd_slots; try eassumption. intros s s' _. cbn [slot1]. rewrite Hf. split; [discriminate|]. constructor. exact HR. }
          destruct H1 as (_ & _ & _ & _ & _ & [[Hty _]|(b & Hb & Hb' & _)]).
          + rewrite Hty, Hf. eapply up_bind; [apply in_up|]. intros v w HR. apply up_ret. apply Hput. exact HR.
          + rewrite Hf in Hb. inversion Hb; subst b. rewrite Hb'.
            intros v a v1 Hcl Hv. apply bind_ok in Hv. destruct Hv as (u & v2 & Hu & Hv).
            destruct (in_up id t v u v2 Hcl Hu) as (w & Hw & HR). exists (upd i (fun _ => SOne (Some w)) ss').
            rewrite vrun_bind, vrun_attempt, Hw. cbn [vrun] in *. inversion Hv; subst. split; [reflexivity|]. apply Hput. exact HR.
        - intros s s' HS'. apply IH; auto.
          + intros k g Hk; replace (S i + k) with (i + S k) by lia; apply Hg; exact Hk.
          + intros k g Hk; replace (S i + k) with (i + S k) by lia; apply Hg'; exact Hk.
          + intros g b Hin. apply Ho. right. exact Hin.
      Qed.

      Lemma arm_struct_up : forall i f f' id d ss ss', nth_error fs i = Some f -> nth_error fs' i = Some f' ->
        fbase (f_ty f) = BUser id -> Sl ss ss' -> up Sl (arm_struct rec i id d ss) (arm_struct rec' i id d ss').
      Proof.
        intros i f f' id d ss ss' Hf Hf' Hb HS. unfold arm_struct.
        assert (Hgo : up Sl (Peek (fun r => match r with
          | Ok (EStart _ _ _) => let* v := rec id in next_ ;; Ret (upd i (put_slot v) ss) | _ => Ret ss end))
          (Peek (fun r => match r with
          | Ok (EStart _ _ _) => let* v := rec' id in next_ ;; Ret (upd i (put_slot v) ss') | _ => Ret ss' end))).
        { apply up_peek. intros r. destruct r as [e|]; [|apply up_ret; exact HS]. destruct e; try (apply up_ret; exact HS).
          eapply up_bind; [apply Hrec|]. intros v w HR. apply up_then. intros _. apply up_ret.
          eapply put_slots; try eassumption. rewrite Hb. constructor. exact HR. }
        destruct (Z.eqb d 0); [|exact Hgo]. apply up_next. intros _. exact Hgo.
      Qed.
      Lemma arm_simple_up : forall ra i f f' s n ss ss', nth_error fs i = Some f -> nth_error fs' i = Some f' -> looser_field f f' ->
        fbase (f_ty f) = BSimple s -> Sl ss ss' -> up Sl (arm_simple x ra i f s n ss) (arm_simple x ra i f' s n ss').
      Proof.
        intros ra i f f' s n ss ss' Hf Hf' HL Hb HS. unfold arm_simple. pose proof HL as (Hl & Hp & _). rewrite Hl, Hp.
        destruct (namespace_check _ _ _ _); [apply up_throw|]. apply up_then. intros r. destruct r as [v|]; apply up_ret; [|exact HS].
        eapply put_slots; try eassumption. rewrite Hb. constructor.
      Qed.

      Definition lrel (st st' : lstate) : Prop :=
        Sl (l_slots st) (l_slots st') /\ l_unused st' = l_unused st /\ l_depth st' = l_depth st.

      Lemma loop_up : forall td td', t_attrs td' = t_attrs td -> t_name td' = t_name td -> forall fl ln sd st st', lrel st st' ->
        up lrel (struct_loop x E rec fuel fl td fs ln sd st) (struct_loop x E' rec' fuel fl td' fs' ln sd st').
      Proof.
        intros td td' Hta Htn fl. induction fl as [|fl IH]; intros ln sd st st' (HS & HU & HD); cbn [struct_loop]; [apply up_stuck|].
        assert (Hroot : de_root td' = de_root td) by (unfold de_root; rewrite Hta, Htn; reflexivity).
        assert (Hrns : de_root_ns td' = de_root_ns td) by (unfold de_root_ns; rewrite Hta; reflexivity).
        rewrite Hta, Hroot, Hrns, HU, HD.
        apply up_peek_. intros e He. destruct e; try apply up_throw.
        - destruct (ya_flatten (t_attrs td)); [apply up_ret; repeat split; assumption|]. apply IH. repeat split; assumption.
        - apply up_bind with (R := lrel).
          + destruct (_ && _)%bool.
            { apply up_then. intros ev. apply up_then. intros u. apply up_ret. repeat split; exact HS. }
            pose proof (find_same (t_attrs td) fs fs' 0 (opt_default "" (n_ns n)) (n_local n) HF) as Hfind.
            destruct (find_field (t_attrs td) fs 0 _ _) as [[i f]|].
            * destruct Hfind as (k & f' & Hk & Hf & Hf' & HL & ->). cbn [Nat.add] in Hk. subst k. rewrite (looser_base _ _ HL).
              apply up_bind with (R := Sl); [|intros s s' Hs; apply up_ret; repeat split; exact Hs].
              destruct (fbase (f_ty f)) eqn:Hb; [eapply arm_simple_up|eapply arm_struct_up]; eassumption.
            * rewrite Hfind. apply up_then. intros ev. apply up_then. intros u. apply up_then. intros u'. apply up_ret. repeat split; exact HS.
          + intros s1 s1' (HS1 & HU1 & HD1). rewrite HU1, HD1.
            apply up_bind with (R := Sl).
            * destruct (Z.eqb (l_depth s1) 0); [|apply up_ret; exact HS1]. apply loads_up; auto.
            * intros q q' Hq. apply IH. repeat split; exact Hq.
        - apply up_depth. intros d. destruct (_ && _)%bool.
          + apply up_then. intros u. apply up_ret. repeat split; exact HS.
          + apply up_then. intros ev. apply up_then. intros u. apply IH. repeat split; exact HS.
        - apply up_then. intros ev. apply up_then. intros u. apply IH. repeat split. apply text_slots; assumption.
      Qed.
    End Fields.

    (** ** Enums *)
    Section Variants.
      Variables vs vs' : list variant.
      Hypothesis HV : Forall2 looser_variant vs vs'.

      (** What has been read so far. *)
      Inductive read1 : value -> value -> Prop :=
      | read_unit : forall i u, nth_error vs i = Some u -> v_body u = VbUnit -> read1 (VVar i []) (VVar i [])
      | read_new : forall i u u' b b' t t' v w, nth_error vs i = Some u -> nth_error vs' i = Some u' ->
          v_body u = VbNew b t -> v_body u' = VbNew b' t' -> kept_item x E E' t t' v w -> read1 (VVar i [v]) (VVar i [w]).
      Definition crel (c c' : option value) : Prop :=
        match c, c' with None, None => True | Some v, Some w => read1 v w | _, _ => False end.
      Definition arel (r r' : option value * bool) : Prop := crel (fst r) (fst r') /\ snd r' = snd r.

      Lemma find_variant_same : forall us us' i nm, Forall2 looser_variant us us' ->
        match find_variant us i nm with
        | Some (j, b) => exists k u u', j = i + k /\ nth_error us k = Some u /\ nth_error us' k = Some u' /\ looser_variant u u' /\
            b = v_body u /\ find_variant us' i nm = Some (j, v_body u')
        | None => find_variant us' i nm = None
        end.
      Proof.
        intros us us' i nm H. revert i. induction H as [|u u' us us' H1 H2 IH]; intros i; cbn [find_variant]; [reflexivity|].
        pose proof H1 as (Hl & Ha & Hb). rewrite Hl, Ha. specialize (IH (S i)).
        assert (Hlater : match find_variant us (S i) nm with
          | Some (j, b) => exists k w w', j = i + k /\ nth_error (u :: us) k = Some w /\ nth_error (u' :: us') k = Some w' /\ looser_variant w w' /\
              b = v_body w /\ find_variant us' (S i) nm = Some (j, v_body w')
          | None => find_variant us' (S i) nm = None end).
        { destruct (find_variant us (S i) nm) as [[j b]|]; [|exact IH].
          destruct IH as (k & w & w' & Hk & Hr). exists (S k), w, w'. split; [lia|]. exact Hr. }
        destruct (v_body u) as [|fl t|gs] eqn:Hu, (v_body u') as [|fl' t'|gs'] eqn:Hu'; try contradiction.
        - destruct (String.eqb _ nm); [|exact Hlater]. exists 0, u, u'. rewrite Nat.add_0_r, Hu, Hu'. repeat split; auto. unfold looser_variant. rewrite Hu, Hu'. auto.
        - destruct (String.eqb _ nm); [|exact Hlater]. exists 0, u, u'. rewrite Nat.add_0_r, Hu, Hu'. repeat split; auto. unfold looser_variant. rewrite Hu, Hu'. auto.
        - exact Hlater.
      Qed.

      Lemma payload_up : forall i u u' b b' t t' v w c c', nth_error vs i = Some u -> nth_error vs' i = Some u' ->
        v_body u = VbNew b t -> v_body u' = VbNew b' t' -> (t' = t \/ exists q, t = TBase q /\ t' = TOpt q) ->
        keptb (fbase t) v w -> crel c c' -> up crel (set_payload t i v c) (set_payload t' i w c').
      Proof.
        intros i u u' b b' t t' v w c c' Hu Hu' Hb Hb' Ht Hv Hc.
        assert (Hr : forall a a', kept_item x E E' t t' a a' -> up crel (Ret (Some (VVar i [a]))) (Ret (Some (VVar i [a'])))).
        { intros a a' Ha. apply up_ret. cbn [crel]. eapply read_new; eassumption. }
        destruct Ht as [->|(q & -> & ->)].
        - destruct t as [q|q|q|q]; cbn [set_payload fbase] in *; try (apply Hr; constructor; assumption).
          destruct c as [c|], c' as [c'|]; try contradiction; cbn [crel] in Hc.
          + inversion Hc as [j z Hz Hz'|j z z' d d' r r' a a' Hz Hz' Hd Hd' Ha]; subst; [apply up_throw|].
            destruct a; try apply up_throw. destruct (Nat.eqb i j) eqn:Hij; [|apply up_throw]. apply Nat.eqb_eq in Hij. subst j.
            rewrite Hu in Hz. inversion Hz; subst z. rewrite Hb in Hd. inversion Hd; subst r d.
            rewrite Hu' in Hz'. inversion Hz'; subst z'. rewrite Hb' in Hd'. inversion Hd'; subst r' d'.
            inversion Ha; subst. apply Hr. constructor. apply kept_snoc; assumption.
          + apply Hr. constructor. constructor; [exact Hv|constructor].
        - cbn [set_payload fbase] in *. apply Hr. constructor. exact Hv.
      Qed.

      Lemma arm_up : forall i u u' c c', nth_error vs i = Some u -> nth_error vs' i = Some u' -> looser_variant u u' -> crel c c' ->
        up arel (enum_arm x rec i (v_body u) c) (enum_arm x rec' i (v_body u') c').
      Proof.
        intros i u u' c c' Hu Hu' (_ & _ & Hb) Hc.
        destruct (v_body u) as [|fl t|gs] eqn:Hvb, (v_body u') as [|fl' t'|gs'] eqn:Hvb'; try contradiction; cbn [enum_arm].
        - apply up_ret. split; [|reflexivity]. cbn [fst crel]. eapply read_unit; eassumption.
        - assert (Hfb : fbase t' = fbase t) by (destruct Hb as [->|(q & -> & ->)]; reflexivity). rewrite Hfb.
          destruct (fbase t) as [s|id] eqn:Hbt.
          + apply up_then. intros r. destruct r as [v|]; [|apply up_ret; split; [exact Hc|reflexivity]].
            eapply up_bind with (R := crel); [|intros d d' Hd; apply up_ret; split; [exact Hd|reflexivity]].
            eapply payload_up; try eassumption. rewrite Hbt. constructor.
          + eapply up_bind; [apply Hrec|]. intros v w HR.
            eapply up_bind with (R := crel); [|intros d d' Hd; apply up_next; intros _; apply up_ret; split; [exact Hd|reflexivity]].
            eapply payload_up; try eassumption. rewrite Hbt. constructor. exact HR.
        - apply up_ret. split; [exact Hc|reflexivity].
      Qed.

      Lemma enum_loop_up : forall td td', t_attrs td' = t_attrs td -> forall fl ln sd c c', crel c c' ->
        up crel (enum_loop x rec fl td vs ln sd c) (enum_loop x rec' fl td' vs' ln sd c').
      Proof.
        intros td td' Hta fl. induction fl as [|fl IH]; intros ln sd c c' Hc; cbn [enum_loop]; [apply up_stuck|]. rewrite Hta.
        assert (Harm : forall nm d d' (q q' : prog (option value * bool)), crel d d' -> up arel q q' ->
          up arel (match find_variant vs 0 nm with Some (i, b) => enum_arm x rec i b d | None => q end)
                  (match find_variant vs' 0 nm with Some (i, b) => enum_arm x rec' i b d' | None => q' end)).
        { intros nm d d' q q' Hd Hq. pose proof (find_variant_same vs vs' 0 nm HV) as Hfind.
          destruct (find_variant vs 0 nm) as [[i b]|]; [|rewrite Hfind; exact Hq].
          destruct Hfind as (k & u & u' & Hk & Hu & Hu' & HL & -> & ->). cbn [Nat.add] in Hk. subst k. apply arm_up; assumption. }
        apply up_peek_. intros e He. destruct e; try apply up_throw.
        - destruct (ya_flatten (t_attrs td)); [apply up_ret; exact Hc|apply up_throw].
        - apply up_then. intros nm. apply up_bind with (R := arel).
          + apply Harm; [exact Hc|]. apply up_next. intros _. apply up_ret. split; [exact Hc|reflexivity].
          + intros [d b] [d' b'] [Hd Hb]. cbn [fst snd] in *. subst b'. destruct b; [apply up_ret; exact Hd|].
            apply up_then. intros e2. destruct e2; try (apply IH; exact Hd).
            apply up_bind with (R := arel); [apply Harm; [exact Hd|apply up_ret; split; [exact Hd|reflexivity]]|].
            intros [d2 b2] [d2' b2'] [Hd2 Hb2]. cbn [fst snd] in *. subst b2'. destruct b2; [apply up_ret; exact Hd2|apply IH; exact Hd2].
        - apply up_depth. intros d. destruct (_ && _)%bool; [apply up_ret; exact Hc|]. apply up_next. intros _. apply IH. exact Hc.
        - apply up_next. intros _. apply IH. exact Hc.
      Qed.
    End Variants.

    Lemma body_up : forall id, up (kept x E E' id) (de_body x E rec fuel id) (de_body x E' rec' fuel id).
    Proof.
      intros id. unfold de_body. destruct (nth_error E id) as [td|] eqn:Ht; [|apply up_crash].
      destruct (nth_looser _ _ Ht) as (td' & Ht' & Hn & Ha & Hb). rewrite Ht'.
      destruct (t_body td) as [fs|vs df|k] eqn:Hbd, (t_body td') as [fs'|vs' df'|k'] eqn:Hbd'; try contradiction.
      - unfold de_struct. rewrite Hn, Ha.
        assert (Hroot : de_root td' = de_root td) by (unfold de_root; rewrite Ha, Hn; reflexivity). rewrite Hroot.
        apply up_then. intros e. destruct (match e with EStart _ _ _ => _ | _ => _ end) as [ln sns].
        apply up_depth. intros d. destruct (if Nat.eqb d 0 then _ else _); [apply up_throw|].
        eapply up_bind with (R := lrel fs fs').
        + apply loop_up; auto. repeat split; [apply init_slots; exact Hb|]. cbn [l_unused]. unfold init_unused.
          replace (has_flatten fs') with (has_flatten fs); [reflexivity|].
          clear - Hb. induction Hb as [|f f' fs fs' H1 H2 IH]; [reflexivity|]. unfold has_flatten in *. cbn [existsb].
          destruct H1 as (_ & _ & -> & -> & _). rewrite IH. reflexivity.
        + intros st st' (HS & HU & _). rewrite HU. apply up_bind with (R := slots fs fs').
          * destruct (l_unused st); cbn [visit_unused]; try (apply up_ret; exact HS). apply flatten_up; auto.
            intros f b Hin. eapply HO; [|exact Hbd|exact Hin]. eapply nth_error_In. exact Ht.
          * intros ss ss' HSS. destruct (build x (t_name td) fs ss) as [l|] eqn:Hl; cbn [of_res bind]; [|apply up_throw].
            destruct (build_kept (t_name td) (t_name td) _ _ _ _ _ Hb HSS Hl) as (l' & Hl' & Hk). rewrite Hl'. cbn [of_res bind].
            apply up_ret. eapply k_struct; eassumption.
      - unfold de_enum. rewrite Ha. destruct Hb as [Hv ->].
        assert (Hroot : de_root td' = de_root td) by (unfold de_root; rewrite Ha, Hn; reflexivity). rewrite Hroot.
        apply up_then. intros e. destruct (match e with EStart _ _ _ => _ | _ => _ end) as [ln sns].
        apply up_depth. intros d. destruct (namespace_check _ _ _ _); [apply up_throw|].
        eapply up_bind with (R := crel vs vs'); [apply enum_loop_up; auto; exact I|].
        intros c c' Hc. apply up_ret. destruct c as [v|], c' as [w|]; try contradiction; cbn [crel] in Hc.
        + destruct Hc as [i u Hu Hub|i u u' b b' t t' v w Hu Hu' Hub Hub' Hk]; [eapply k_unit|eapply k_payload]; eassumption.
        + eapply k_default; eassumption.
      - subst k'. unfold de_prim. rewrite Hn. intros v a v1 Hc Hv. exists a. split; [exact Hv|]. eapply k_prim; eassumption.
    Qed.
  End Body.

  Theorem de_up : forall fuel id, up (kept x E E' id) (de x E fuel id) (de x E' fuel id).
  Proof. induction fuel as [|fuel IH]; intros id; cbn [de]; [apply up_stuck|]. apply body_up. exact IH. Qed.
End Evolve.

Theorem looser_reads : forall x E E' fuel id s v, looser E E' -> no_flattened_option E ->
  from_str x E fuel id s = OOk v ->
  exists w, from_str x E' fuel id s = OOk w /\ kept x E E' id v w.
Proof.
  intros x E E' fuel id s v HE HO H. unfold from_str, from_events in *. rewrite (proj1 (run_view _ _ _)) in H.
  rewrite (proj1 (run_view _ _ _)).
  assert (Hc : clean_state (view (d_init (parse_text s)))).
  { intros e He. rewrite view_init in He. cbn [v_rest] in He. apply filter_In in He. eapply parse_clean. apply He. }
  destruct (vrun (de x E fuel id) (view (d_init (parse_text s)))) as [o v1] eqn:Hr. cbn [fst] in H. subst o.
  destruct (de_up x E E' HE HO fuel id _ _ _ Hc Hr) as (w & Hw & HR). exists w. rewrite Hw. split; [reflexivity|exact HR].
Qed.
