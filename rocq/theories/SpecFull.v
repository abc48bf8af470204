(** * Writers that take a limited number of bytes: vocabulary (C74). *)
From Verif Require Import Str Num Xml XmlText Schema Ser.
Open Scope list_scope.

(** [serialize_with_writer] (ser/mod.rs:26-36) with a writer that takes [n]
    bytes and then fails, say a file on a full disk.  xml-rs writes every event
    at once and reports the failure of the underlying writer.  The k-th call is
    the one for the k-th event of [l], which are those of the value; it fails if
    the text up to and with this event has more than [n] bytes. *)
Definition full_at (c : config) (n : nat) (l : list wevent) (k : nat) : bool :=
  Nat.ltb n (String.length (emit_text (econf_of c) (firstn (S k) l))).

(** Types that have an element of their own. *)
Definition own_element (td : typedef) : Prop :=
  match t_body td with DPrim _ => True | _ => ya_flatten (t_attrs td) = false end.
