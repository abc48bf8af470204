(** * Vocabulary for C47: what in a document can give a field its value. *)
From Verif Require Import Str Num Xml XmlText Reader Schema SpecTree SpecStruct.
Open Scope list_scope.

(** Event [e] has something for field [f] of a struct with attributes [ra],
    wherever it stands: a start tag with an attribute of the field's name, a
    start tag with the field's name and namespace, or a text. *)
Definition supplies (ra : yattr) (f : field) (e : event) : Prop :=
  match e with
  | EStart n attrs _ =>
      if ya_attribute (f_attrs f) then exists a, In a attrs /\ n_local (at_name a) = field_name f
      else elabel n = flabel ra f
  | EChars _ => ya_text (f_attrs f) = true
  | _ => False
  end.
