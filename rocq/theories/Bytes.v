(** * Input that is any bytes.

    [from_reader] (yaserde/src/de/mod.rs:13-15) takes any reader; its bytes need
    not be UTF-8.  xml-rs takes the characters from the reader one by one
    (xml-rs 0.8.3, [util::next_char_from]); XmlText.v starts from the
    characters. *)
From Verif Require Import Str Num Xml XmlText Reader Schema De Checked SpecCut.

Inductive char_read :=
| CChar (ch rest : string)   (** a character, and what follows *)
| CEnd                       (** the end of the input *)
| CErr.                      (** bytes that are no character *)

(** [util::next_char_from]: takes one byte after the other until
    [str::from_utf8] accepts them, four at most; [n] is the number of bytes that
    may follow the next one. *)
Fixpoint next_char (n : nat) (buf s : string) : char_read :=
  match s with
  | EmptyString => match buf with EmptyString => CEnd | _ => CErr end
  | String c r =>
      let buf' := (buf +++ String c "")%string in
      if from_utf8 buf' then CChar buf' r
      else match n with O => CErr | S m => next_char m buf' r end
  end.

(** All characters up to the end or the first error, and whether the end was
    reached.  Every character takes a byte, so that the length of the input is
    enough for [fuel]. *)
Fixpoint chars (fuel : nat) (s : string) : string * bool :=
  match fuel with
  | O => ("", false)
  | S f =>
      match next_char 3 "" s with
      | CEnd => ("", true)
      | CErr => ("", false)
      | CChar ch r => let '(p, ok) := chars f r in ((ch +++ p)%string, ok)
      end
  end.
Definition read_chars (s : string) : string * bool := chars (S (String.length s)) s.

(** What the parser delivers on the bytes [s]; [msg] is the message of the
    error.  Bytes that are no character end the parse as a failing reader does
    (SpecCut.v). *)
Definition parse_bytes (s msg : string) : stream :=
  let '(p, ok) := read_chars s in if ok then parse_text p else parse_failing p msg.

(** [from_reader] on these bytes, without and with the UTF-8 check of
    Checked.v. *)
Definition from_bytes (x : ext) (E : env) (fuel : nat) (id : nat) (s msg : string) : outcome value :=
  from_events x E fuel id (parse_bytes s msg).
Definition from_bytes_checked (x : ext) (E : env) (fuel : nat) (id : nat) (s msg : string) : outcome value :=
  fst (run (de_checked x E fuel id) (d_init (parse_bytes s msg))).
