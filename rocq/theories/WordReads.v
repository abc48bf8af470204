(** * Attribute lists (C40): from the words of the attribute to the field. *)
From Verif Require Import Str Num Xml XmlText Reader Schema De SpecTree SpecText SpecValue SpecStruct StructReads WordProofs.
Open Scope list_scope.

Lemma attr_texts_none : forall f a, (forall c, In c a -> n_local (at_name c) <> field_name f) -> attr_texts f a = [].
Proof.
  intros f a. induction a as [|c a IH]; intros H; [reflexivity|]. unfold attr_texts. cbn [flat_map].
  destruct (String.eqb (n_local (at_name c)) (field_name f)) eqn:He.
  { apply String.eqb_eq in He. exfalso. apply (H c (or_introl eq_refl)). exact He. }
  apply IH. intros; apply H; right; assumption.
Qed.

Lemma read_attr_list : forall x E k id td fs d n a1 b a2 m kids i f s words vs,
  struct_type E id td fs -> nth_error fs i = Some f ->
  ya_attribute (f_attrs f) = true -> ya_text (f_attrs f) = false ->
  f_ty f = TVec (BSimple s) ->
  n_local (at_name b) = field_name f ->
  (forall c, In c (a1 ++ a2) -> n_local (at_name c) <> field_name f) ->
  separated (at_value b) words ->
  Conforms x E k id (Elem n (a1 ++ b :: a2) m kids) ->
  Reads x E id d (Elem n (a1 ++ b :: a2) m kids) (OOk (VRec vs)) ->
  exists l, Forall2 (fun t v => visit_simple x s t = Ok v) words l /\ nth_error vs i = Some (VVec l).
Proof.
  intros x E k id td fs d n a1 b a2 m kids i f s words vs Hs Hi Ha Ht Hty Hb Hc Hw HC HR.
  destruct (read_attr_values x E k id td fs d n _ m kids i f s vs Hs Hi Ha Ht ltac:(rewrite Hty; reflexivity) HC HR)
    as (l & Hl & Hv).
  exists l. replace (attr_texts f (a1 ++ b :: a2)) with words in Hl.
  - split; [exact Hl|]. rewrite Hv. unfold collected. rewrite Hty. destruct (rev l); reflexivity.
  - unfold attr_texts. rewrite flat_map_app. cbn [flat_map]. fold (attr_texts f a1) (attr_texts f a2).
    rewrite !attr_texts_none by (intros; apply Hc; apply in_or_app; auto).
    rewrite Hb, String.eqb_refl, Hty, (split_separated _ _ Hw), app_nil_r. reflexivity.
Qed.
