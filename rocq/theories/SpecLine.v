(** * Documents as they are received: line ends and the byte order mark.

    XML 1.0 [2.11]: a carriage return with a line feed, and a carriage return
    without one, are passed on as one line feed.  XML 1.0 [4.3.3]: a byte order
    mark in front of a document is no part of it. *)
From Verif Require Import Str Xml Schema SpecTree SpecXml.

(** [line_ends s t]: [t] is [s] with its line ends translated. *)
Inductive line_ends : string -> string -> Prop :=
| le_none : line_ends "" ""
| le_char : forall c s t, c <> "013"%char -> line_ends s t -> line_ends (String c s) (String c t)
| le_both : forall s t, line_ends s t -> line_ends (String "013" (String "010" s)) (String "010" t)
| le_one : forall s t, (forall r, s <> String "010" r) -> line_ends s t -> line_ends (String "013" s) (String "010" t).

(** U+FEFF in UTF-8. *)
Definition order_mark : string := String "239" (String "187" (String "191" "")).

(** The texts of the document [t]. *)
Definition received_document (t : xnode) (s : string) : Prop :=
  exists u v, (s = u \/ s = order_mark +++ u) /\ line_ends u v /\ any_document t v.
