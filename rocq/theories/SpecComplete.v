(** * Vocabulary for C41: documents whose root element is closed. *)
From Verif Require Import Str Xml XmlText.
Open Scope list_scope.

(** What stands between a start tag and its end tag: texts and whole
    elements. *)
Inductive content : list event -> Prop :=
| content_nil : content []
| content_text : forall e r,
    match e with EChars _ | ECData _ | EWhitespace _ => True | _ => False end ->
    content r -> content (e :: r)
| content_elem : forall n a m l r,
    content l -> content r -> content (EStart n a m :: l ++ EEnd n :: r).

(** The events of a source without the XML declaration, comments and
    processing instructions. *)
Definition markup (s : stream) : list event :=
  filter (fun e => match e with EStartDoc | EPI _ | EComment _ => false | _ => true end) (s_evs s).

(** The source begins with one whole element: its root element is closed. *)
Definition root_closed (s : stream) : Prop :=
  exists n a m l r, markup s = EStart n a m :: l ++ EEnd n :: r /\ content l.
