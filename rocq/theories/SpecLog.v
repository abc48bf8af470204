(** * Values written one after the other into one text: vocabulary (C78). *)
From Verif Require Import Str Num Xml XmlText Reader Schema De Ser SpecTree SpecText SpecEnc SpecOut SpecXml SpecWritten.
Open Scope list_scope.

(** A text to which the texts of values ([to_string_with_config]) have been
    appended one by one, each with a configuration of its own, with white space,
    comments and processing instructions between.  [ok] holds for the
    configuration, the type, the value and its text. *)
Inductive log (x : ext) (E : env) (ok : config -> nat -> value -> string -> Prop) : list (nat * value) -> string -> Prop :=
| log_none : log x E ok [] ""
| log_more : forall c id v s m l r, to_string_with_config x E c id v = SOk s -> ok c id v s -> misc m -> log x E ok l r ->
    log x E ok ((id, v) :: l) (s +++ m +++ r).

(** No declaration, white space for indentation. *)
Definition log_config (c : config) : Prop :=
  c_decl c = false /\ (forall i, c_indent_string c = Some i -> indentation i).

(** The value comes back from a text of its own. *)
Definition comes_back (x : ext) (E : env) (fuel : nat) (id : nat) (v : value) (s : string) : Prop :=
  from_str x E fuel id s = OOk v.

(** Texts without control characters and carriage returns, no "]]>" in CDATA
    sections. *)
Definition tame (x : ext) (E : env) (p : nat * value) : Prop :=
  forall l, ser_events x E (fst p) (snd p) = SOk l -> forall e, In e l -> legal_event e /\ no_return_event e.
(** A type that is not flattened. *)
Definition own_type (E : env) (id : nat) : Prop := exists td, nth_error E id = Some td /\ ya_flatten (t_attrs td) = false.
