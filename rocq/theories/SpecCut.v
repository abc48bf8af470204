(** * Readers that stop delivering: vocabulary (C52). *)
From Verif Require Import Str Xml XmlText Reader Schema De.

(** The events of a reader that delivers the bytes of [s] and then fails with
    [msg].  xml-rs reports a failure of its reader as a lexer error, which ends
    the parse like a syntax error does; the text read so far in front of the
    failure is dropped.  [Deserializer::inner_next] (de/mod.rs:53-69) turns the
    error into its message. *)
Definition parse_failing (s msg : string) : stream :=
  let st := prun p0 s in
  Stream (p_out st) (FErr (match p_mode st with MFail m => m | _ => msg end)).

(** [from_reader] (de/mod.rs:13-15) on such a reader. *)
Definition from_failing (x : ext) (E : env) (fuel : nat) (id : nat) (s msg : string) : outcome value :=
  from_events x E fuel id (parse_failing s msg).

(** The text ends inside of the document: the parser reports an error there. *)
Definition unfinished (s : string) : Prop := s_fin (parse_text s) <> FEnd.

(** Structs and enums, as opposed to newtypes of a simple type. *)
Definition compound (td : typedef) : Prop := match t_body td with DPrim _ => False | _ => True end.
