(** * Vocabulary for written documents as documents of the grammar (C56). *)
From Verif Require Import Str Xml XmlText SpecXml.
Open Scope list_scope.

(** Texts without carriage return (XML readers turn it into a line feed; it
    would have to be written as a reference). *)
Definition no_return : string -> Prop := every (fun c => c <> "013"%char).
Definition no_return_event (e : wevent) : Prop :=
  match e with WChars s | WCData s => no_return s | _ => True end.
(** Indentation made of spaces, tabs and line feeds. *)
Definition indentation : string -> Prop := every (fun c => c = " "%char \/ c = "009"%char \/ c = "010"%char).
