(** * Deciding whether a document has something for the new fields.

    A sound boolean version of [Spared] (SpecSpared.v), used by the examples. *)
From Verif Require Import Str Num Xml XmlText Reader Schema De SpecTree SpecText SpecStruct SpecValue SpecMove SpecSpared TreeFacts TreeProofs TextProofs FitsCheck StructProofs.
Open Scope list_scope.
Open Scope bool_scope.

Definition unsuppliedb (ra : yattr) (f : field) (attrs : list attr) (kids : list node) : bool :=
  (negb (ya_attribute (f_attrs f)) || forallb (fun a => negb (String.eqb (n_local (at_name a)) (snd (flabel ya0 f)))) attrs) &&
  (ya_attribute (f_attrs f) || (negb (ya_flatten (f_attrs f)) &&
     forallb (fun k => match k with Elem n _ _ _ => negb (label_eqb (elabel n) (flabel ra f)) | Txt _ => true end) kids)) &&
  (negb (ya_text (f_attrs f)) || forallb (fun k => match k with Elem _ _ _ _ => true | Txt _ => false end) kids).
Lemma unsuppliedb_ok : forall ra f attrs kids, unsuppliedb ra f attrs kids = true -> unsupplied ra f attrs kids.
Proof.
  intros ra f attrs kids H. unfold unsuppliedb in H. rewrite !andb_true_iff in H. destruct H as ((H1 & H2) & H3). split; [|split].
  - intros Ha a Hin. rewrite Ha in H1. cbn [negb orb] in H1. rewrite forallb_forall in H1. specialize (H1 a Hin). cbv beta in H1.
    intros Heq. rewrite Heq, String.eqb_refl in H1. discriminate.
  - intros Ha. rewrite Ha in H2. cbn [orb] in H2. apply andb_true_iff in H2. destruct H2 as [Hf Hk]. split; [apply negb_true_iff; exact Hf|].
    intros n b m c Hin Heq. rewrite forallb_forall in Hk. specialize (Hk _ Hin). cbv beta iota in Hk. rewrite (proj2 (label_eqb_eq _ _) Heq) in Hk. discriminate.
  - intros Ht s Hin. rewrite Ht in H3. cbn [negb orb] in H3. rewrite forallb_forall in H3. specialize (H3 _ Hin). discriminate H3.
Qed.

Definition nothing_forb (p : plan) (td : typedef) (fs : list field) (n : name) (attrs : list attr) (kids : list node) : bool :=
  forallb (fun q => match fst q with
                    | Some _ => true
                    | None => unsuppliedb (t_attrs td) (snd q) attrs kids &&
                              (label_eqb (elabel n) (root_label td) || negb (label_eqb (flabel (t_attrs td) (snd q)) (elabel n)))
                    end) (combine p fs).
Lemma in_combine_at : forall A B (l : list A) (m : list B) j a b, nth_error l j = Some a -> nth_error m j = Some b -> In (a, b) (combine l m).
Proof.
  intros A B l. induction l as [|a0 l IH]; intros [|b0 m] [|j] a b Ha Hb; try discriminate; cbn in *.
  - inversion Ha; inversion Hb; subst. left; reflexivity.
  - right. eapply IH; eassumption.
Qed.
Lemma nothing_forb_ok : forall p td fs n attrs kids, nothing_forb p td fs n attrs kids = true -> nothing_for p td fs n attrs kids.
Proof.
  intros p td fs n attrs kids H j f Hp Hf. unfold nothing_forb in H. rewrite forallb_forall in H. specialize (H _ (in_combine_at _ _ _ _ _ _ _ Hp Hf)).
  cbn [fst snd] in H. apply andb_true_iff in H. destruct H as [Hu Hr]. split; [apply unsuppliedb_ok; exact Hu|].
  apply orb_true_iff in Hr. destruct Hr as [Hr|Hr]; [left; apply label_eqb_eq; exact Hr|right]. intros _ Heq. rewrite (proj2 (label_eqb_eq _ _) Heq) in Hr. discriminate.
Qed.

Section Sparesb.
  Variables (P : nat -> plan) (E' : env) (sa : nat -> string -> Prop) (sf : nat -> node -> Prop) (af : nat -> string -> bool) (ff : nat -> node -> bool).
  Hypothesis Haf : forall id s, af id s = true -> sa id s.
  Hypothesis Hff : forall id t, ff id t = true -> sf id t.

  Definition child_typeb (id : nat) (n : name) : option nat :=
    match nth_error E' id with
    | None => None
    | Some td =>
        match t_body td with
        | DStruct fs => match field_for (t_attrs td) fs n with
                        | Some (_, f) => match base_of (f_ty f) with BUser i => Some i | _ => None end
                        | None => None
                        end
        | DEnum vs _ => match variant_for vs (n_local n) with
                        | Some (_, VbNew _ t) => match base_of t with BUser i => Some i | _ => None end
                        | _ => None
                        end
        | DPrim _ => None
        end
    end.
  Lemma child_typeb_ok : forall id n id1, child_type E' id n id1 -> child_typeb id n = Some id1.
  Proof.
    intros id n id1 [(td & fs & i & f & [Ht Hb] & Hf & Hu)|(td & vs & df & i & b & t & Ht & Hb & Hf & Hu)]; unfold child_typeb; rewrite Ht, Hb, Hf, Hu; reflexivity.
  Qed.

  Fixpoint sparesb (N : nat) (id : nat) (t : node) {struct N} : bool :=
    match N, t with
    | S N', Elem n attrs m kids =>
        match nth_error E' id with
        | Some td =>
            match t_body td with
            | DStruct fs =>
                nothing_forb (P id) td fs n attrs kids && attrs_fineb af fs attrs &&
                forallb (fun f => negb (flat_field f) ||
                  match base_of (f_ty f) with BUser i => ff i (Elem n attrs m (filter (is_left (t_attrs td) fs) kids)) | _ => true end) fs
            | _ => true
            end
        | None => true
        end &&
        forallb (fun k => match k with
                          | Elem cn _ _ _ => match child_typeb id cn with Some i => sparesb N' i k | None => true end
                          | Txt _ => true
                          end) kids
    | _, _ => false
    end.
  Lemma sparesb_ok : forall N id t, sparesb N id t = true -> Spares P E' sa sf id t.
  Proof.
    induction N as [|N IH]; intros id [n attrs m kids|s] H; try discriminate. cbn [sparesb] in H. apply andb_true_iff in H. destruct H as [H1 H2].
    constructor.
    - intros td fs [Ht Hb]. rewrite Ht, Hb in H1. rewrite !andb_true_iff in H1. destruct H1 as ((Hn & Ha) & Hf). split; [apply nothing_forb_ok; exact Hn|].
      split; [eapply attrs_fineb_ok; eassumption|]. intros f id1 Hin Hfl Hu. rewrite forallb_forall in Hf. specialize (Hf f Hin). cbv beta in Hf. rewrite Hfl, Hu in Hf. apply Hff. exact Hf.
    - intros cn ca cm ck id1 Hin Hc. apply child_typeb_ok in Hc. rewrite forallb_forall in H2. specialize (H2 _ Hin). cbv beta iota in H2. rewrite Hc in H2. apply IH. exact H2.
  Qed.
End Sparesb.

Fixpoint sparedb (P : nat -> plan) (E' : env) (N k : nat) (id : nat) (t : node) : bool :=
  match k with
  | O => sparesb P E' (fun _ _ => false) (fun _ _ => false) N id t
  | S k' => sparesb P E'
      (fun id s => match nth_error E' id, unesc s with Some td, Some u => sparedb P E' N k' id (wrapped td u) | _, _ => true end)
      (fun id r => sparedb P E' N k' id (reread [] (wn r))) N id t
  end.
Lemma sparedb_ok : forall P E' N k id t, sparedb P E' N k id t = true -> Spared P E' k id t.
Proof.
  intros P E' N. induction k as [|k IH]; intros id t H; cbn [sparedb Spared] in *.
  - eapply sparesb_ok; [| |exact H]; discriminate.
  - eapply sparesb_ok; [| |exact H].
    + intros i s Hs td u Ht ->. rewrite Ht, unesc_pcdata in Hs. apply IH. exact Hs.
    + intros i r Hr. apply IH. exact Hr.
Qed.
