(** * The same declarations elsewhere

    Vocabulary of C64.  Types refer to each other by name; in the model, by
    their number in the list of declarations.  [M i j] says that type [i] of
    one program and type [j] of another are declared by the same text.

    yaserde_derive/src/common/field.rs (the type of a field is a path). *)
From Verif Require Import Str Num Xml Schema.

Definition eq_base (M : nat -> nat -> Prop) (b c : base) : Prop :=
  match b, c with
  | BSimple s, BSimple t => s = t
  | BUser i, BUser j => M i j
  | _, _ => False
  end.
Definition eq_fty (M : nat -> nat -> Prop) (t u : fty) : Prop :=
  match t, u with
  | TBase b, TBase c | TOpt b, TOpt c | TVec b, TVec c | TOptVec b, TOptVec c => eq_base M b c
  | _, _ => False
  end.
Definition eq_field (M : nat -> nat -> Prop) (f g : field) : Prop :=
  f_label f = f_label g /\ f_attrs f = f_attrs g /\ eq_fty M (f_ty f) (f_ty g).
Definition eq_vbody (M : nat -> nat -> Prop) (b c : vbody) : Prop :=
  match b, c with
  | VbUnit, VbUnit => True
  | VbNew p t, VbNew q u => p = q /\ eq_fty M t u
  | VbNamed fs, VbNamed gs => Forall2 (eq_field M) fs gs
  | _, _ => False
  end.
Definition eq_variant (M : nat -> nat -> Prop) (v w : variant) : Prop :=
  v_label v = v_label w /\ v_attrs v = v_attrs w /\ eq_vbody M (v_body v) (v_body w).
Definition eq_tbody (M : nat -> nat -> Prop) (b c : tbody) : Prop :=
  match b, c with
  | DStruct fs, DStruct gs => Forall2 (eq_field M) fs gs
  | DEnum vs d, DEnum ws e => Forall2 (eq_variant M) vs ws /\ d = e
  | DPrim k, DPrim l => k = l
  | _, _ => False
  end.
Definition eq_typedef (M : nat -> nat -> Prop) (t u : typedef) : Prop :=
  t_name t = t_name u /\ t_attrs t = t_attrs u /\ eq_tbody M (t_body t) (t_body u).

(** [M] relates types with the same text, and so do the names in these texts.
    Nothing is said about types that [M] does not relate to any other. *)
Definition same_text (M : nat -> nat -> Prop) (E E' : env) : Prop :=
  forall i j, M i j ->
  exists td td', nth_error E i = Some td /\ nth_error E' j = Some td' /\ eq_typedef M td td'.

(** Type [i] is named in a declaration. *)
Definition names_type (t : fty) (i : nat) : Prop :=
  match t with TBase b | TOpt b | TVec b | TOptVec b => b = BUser i end.
Definition mentions (td : typedef) (i : nat) : Prop :=
  match t_body td with
  | DStruct fs => exists f, In f fs /\ names_type (f_ty f) i
  | DEnum vs _ => exists v, In v vs /\
      match v_body v with
      | VbUnit => False
      | VbNew _ t => names_type t i
      | VbNamed fs => exists f, In f fs /\ names_type (f_ty f) i
      end
  | DPrim _ => False
  end.

(** [E] and [E'] have the same declaration at [i], and at every number named
    there, and so on. *)
Inductive reaches (E : env) (i : nat) : nat -> Prop :=
| re_here : reaches E i i
| re_there : forall j k td, reaches E i j -> nth_error E j = Some td -> mentions td k -> reaches E i k.
Definition agree_from (i : nat) (E E' : env) : Prop :=
  forall j, reaches E i j -> exists td, nth_error E j = Some td /\ nth_error E' j = Some td.
