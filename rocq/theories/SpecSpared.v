(** * Documents that have nothing for the new fields of a definition:
      vocabulary (C57, with flattened fields). *)
From Verif Require Import Str Num Xml XmlText Reader Schema SpecTree SpecText SpecValue SpecStruct SpecMove SpecSpread.
Open Scope list_scope.

(** The element fields of a struct have different labels. *)
Definition distinct_labels (E : env) : Prop :=
  forall id td fs, struct_type E id td fs -> NoDup (element_labels (t_attrs td) fs).

(** A child element of this name is read as a value of type [id1] by type [id]. *)
Definition child_type (E : env) (id : nat) (n : name) (id1 : nat) : Prop :=
  (exists td fs i f, struct_type E id td fs /\ field_for (t_attrs td) fs n = Some (i, f) /\ base_of (f_ty f) = BUser id1) \/
  (exists td vs df i b t, nth_error E id = Some td /\ t_body td = DEnum vs df /\
     variant_for vs (n_local n) = Some (i, VbNew b t) /\ base_of t = BUser id1).

(** [Spared k id t]: whatever is read from the tree [t] as a struct has nothing
    for its new fields.  [k] as in [Conforms]: the texts of attributes of user
    types and the rests for flattened fields are documents too. *)
Section Spared.
  Variables (P : nat -> plan) (E' : env).

  (** The element is named like its type, or unlike the new fields. *)
  Definition nothing_for (p : plan) (td : typedef) (fs : list field) (n : name) (attrs : list attr) (kids : list node) : Prop :=
    forall j f, nth_error p j = Some None -> nth_error fs j = Some f ->
      unsupplied (t_attrs td) f attrs kids /\
      (elabel n = root_label td \/ (elem_field f -> flabel (t_attrs td) f <> elabel n)).

  Inductive Spares (af : nat -> string -> Prop) (ff : nat -> node -> Prop) : nat -> node -> Prop :=
  | spares : forall id n attrs m kids,
      (forall td fs, struct_type E' id td fs ->
         nothing_for (P id) td fs n attrs kids /\ attrs_fine af fs attrs /\
         (forall f id1, In f fs -> flat_field f = true -> base_of (f_ty f) = BUser id1 ->
            ff id1 (Elem n attrs m (filter (is_left (t_attrs td) fs) kids)))) ->
      (forall cn ca cm ck id1, In (Elem cn ca cm ck) kids -> child_type E' id cn id1 -> Spares af ff id1 (Elem cn ca cm ck)) ->
      Spares af ff id (Elem n attrs m kids).

  Fixpoint Spared (k : nat) (id : nat) (t : node) : Prop :=
    match k with
    | O => Spares (fun _ _ => False) (fun _ _ => False) id t
    | S k' => Spares (fun id s => forall td u, nth_error E' id = Some td -> s = esc_pcdata u -> Spared k' id (wrapped td u))
                     (fun id r => Spared k' id (reread [] (wn r))) id t
    end.
End Spared.
