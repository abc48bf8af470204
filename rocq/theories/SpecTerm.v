(** * Vocabulary for C17: which documents and which types cannot make a
      deserializer loop. *)
From Verif Require Import Str Num Xml XmlText Reader Schema SpecTree SpecStruct SpecSafe.
Open Scope list_scope.

(** The names of the elements left open by some events (innermost first);
    [None]: a tag that closes nothing or something else, or content outside
    of every element. *)
Fixpoint stack_after (st : list name) (l : list event) : option (list name) :=
  match l with
  | [] => Some st
  | EStart n _ _ :: r => stack_after (n :: st) r
  | EEnd n :: r =>
      match st with
      | n' :: st' => if name_eqb n n' then stack_after st' r else None
      | [] => None
      end
  | (EChars _ | ECData _ | EWhitespace _) :: r =>
      match st with [] => None | _ :: _ => stack_after st r end
  | EEndDoc :: _ => None
  | (EStartDoc | EPI _ | EComment _) :: r => stack_after st r
  end.

(** An event source as an XML parser delivers it: a prefix of a well-formed
    document followed by an error, or a whole document. *)
Definition parsed_source (s : stream) : Prop :=
  exists st, stack_after [] (s_evs s) = Some st /\
    (s_fin s = FEnd -> st = [] /\ exists n a m, In (EStart n a m) (s_evs s)).

(** Name of the root element of a source. *)
Definition root_named (s : stream) (n : name) : Prop :=
  exists a m r, filter (fun e => match e with EStartDoc | EPI _ | EComment _ => false | _ => true end) (s_evs s)
                = EStart n a m :: r.

(** Fields that are plain data in the start tag, or elements of a type in the
    set [C].  (A text field is also filled by a child element of its name, so
    it counts as an element of simple type.) *)
Definition calm_field (C : nat -> Prop) (f : field) : Prop :=
  flat_field f = false /\
  (ya_attribute (f_attrs f) = true -> exists s, base_of (f_ty f) = BSimple s) /\
  (elem_field f -> exists id, base_of (f_ty f) = BUser id /\ C id).

(** A set of types that can be read from every element, whatever its name and
    content, without leaving that element: structs of calm fields, enums
    without payloads, and primitive types. *)
Definition calm (E : env) (C : nat -> Prop) : Prop :=
  forall id, C id -> forall td, nth_error E id = Some td ->
  match t_body td with
  | DStruct fs => forall f, In f fs -> calm_field C f
  | DEnum vs _ => forall l a fl t, ~ In (Variant l a (VbNew fl t)) vs
  | DPrim _ => True
  end.

(** A struct at the root of a document may have elements of simple type as
    well, if the root element is not named like one of them. *)
Definition calm_root (C : nat -> Prop) (fs : list field) : Prop :=
  forall f, In f fs -> flat_field f = false /\
    (ya_attribute (f_attrs f) = true -> exists s, base_of (f_ty f) = BSimple s) /\
    (elem_field f -> forall id, base_of (f_ty f) = BUser id -> C id).
