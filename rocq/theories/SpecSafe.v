(** * Vocabulary for C17 and C18: type definitions without panics, nesting of
      event sources. *)
From Verif Require Import Str Num Xml XmlText Reader Schema SpecTree.
Open Scope list_scope.

(** Number of open elements after some events; [None]: an element is closed
    that was not open, or the document ends in the middle. *)
Fixpoint open_after (d : nat) (l : list event) : option nat :=
  match l with
  | [] => Some d
  | EStart _ _ _ :: r => open_after (S d) r
  | EEnd _ :: r => match d with O => None | S k => open_after k r end
  | EEndDoc :: _ => None
  | _ :: r => open_after d r
  end.

(** An event source as an XML parser delivers it: tags are balanced at every
    moment, and at the end of the document everything is closed. *)
Definition nested_source (s : stream) : Prop :=
  exists d, open_after 0 (s_evs s) = Some d /\ (s_fin s = FEnd -> d = 0).

(** Type definitions whose generated code contains no reachable panic: all
    types exist, [flatten] is used on fields of user type (or Option of it),
    and the payloads of enum variants are strings or user types. *)
Definition known (E : env) (b : base) : Prop :=
  match b with BSimple _ => True | BUser id => nth_error E id <> None end.

Definition payload_total (E : env) (b : base) : Prop :=
  match b with BSimple s => s = SString | BUser id => nth_error E id <> None end.

Definition panic_free (E : env) : Prop :=
  forall id td, nth_error E id = Some td ->
  match t_body td with
  | DStruct fs => forall f, In f fs -> known E (base_of (f_ty f)) /\
      (flat_field f = true -> exists i, f_ty f = TBase (BUser i) \/ f_ty f = TOpt (BUser i))
  | DEnum vs _ => forall l a fl t, In (Variant l a (VbNew fl t)) vs -> payload_total E (base_of t)
  | DPrim _ => True
  end.

(** The same without a condition on the payloads: the definitions for which
    the macros generate code that compiles. *)
Definition defined (E : env) : Prop :=
  forall id td, nth_error E id = Some td ->
  match t_body td with
  | DStruct fs => forall f, In f fs -> known E (base_of (f_ty f)) /\
      (flat_field f = true -> exists i, f_ty f = TBase (BUser i) \/ f_ty f = TOpt (BUser i))
  | DEnum vs _ => forall l a fl t, In (Variant l a (VbNew fl t)) vs -> known E (base_of t)
  | DPrim _ => True
  end.
