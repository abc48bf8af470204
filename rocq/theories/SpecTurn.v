(** * One deserializer for several values: vocabulary (C77). *)
From Verif Require Import Str Num Xml XmlText Reader Schema De SpecReader SpecComplete SpecTree SpecXml.
Open Scope list_scope.

(** A client that leaves an element which a deserializer has read, wherever in
    the element that has stopped: [next_event] (de/mod.rs:73-90) until
    [depth] (de/mod.rs:102-104) is what it was in front of the element. *)
Fixpoint leave (fl d : nat) : prog unit :=
  match fl with
  | O => Stuck
  | S fl' => let* _ := next_ in Depth (fun d' => if Nat.eqb d' d then Ret tt else leave fl' d)
  end.

(** A client that reads values of the types [ids] one after the other with one
    [Deserializer]. *)
Fixpoint read_in_turn (x : ext) (E : env) (fuel fl : nat) (ids : list nat) : prog (list value) :=
  match ids with
  | [] => Ret []
  | id :: r =>
      Depth (fun d =>
        let* v := de x E fuel id in
        let* _ := leave fl d in
        let* vs := read_in_turn x E fuel fl r in
        Ret (v :: vs))
  end.

(** The events of one element. *)
Definition one_element (e : list event) : Prop :=
  exists n a m c, content c /\ e = EStart n a m :: c ++ [EEnd n].

(** What a type makes of an element in a document of its own, which may break
    off with an error behind the element ([f]). *)
Definition read_alone (x : ext) (E : env) (fuel : nat) (f : fin) (id : nat) (e : list event) (v : value) : Prop :=
  one_element e /\ from_events x E fuel id (Stream e f) = OOk v.

(** One after the other. *)
Inductive all_alone (P : nat -> list event -> value -> Prop) : list nat -> list (list event) -> list value -> Prop :=
| alone_none : all_alone P [] [] []
| alone_more : forall id e v ids es vs, P id e v -> all_alone P ids es vs ->
    all_alone P (id :: ids) (e :: es) (v :: vs).

(** Not by a flattened type with the document ending behind the element: such
    types take the end of the document for the end of theirs. *)
Definition own_alone (x : ext) (E : env) (fuel : nat) (id : nat) (e : list event) (v : value) : Prop :=
  exists td f, nth_error E id = Some td /\ (ya_flatten (t_attrs td) = false \/ f <> FEnd) /\ read_alone x E fuel f id e v.

(** ** Texts with several root elements, which xml-rs 0.8.3 accepts *)
Inductive elements : list xnode -> string -> Prop :=
| els_none : elements [] ""
| els_more : forall t e m ts s, element t e -> misc m -> elements ts s -> elements (t :: ts) (e +++ m +++ s).
Definition several_documents (ts : list xnode) (s : string) : Prop :=
  exists d m y r, declaration d /\ misc m /\ doctype y /\ elements ts r /\ s = d +++ m +++ y +++ r.

(** What types, not flattened, read from documents of their own. *)
Inductive own_documents (x : ext) (E : env) (fuel : nat) : list nat -> list xnode -> list value -> Prop :=
| own_none : own_documents x E fuel [] [] []
| own_more : forall id t v ids ts vs td n s,
    nth_error E id = Some td -> ya_flatten (t_attrs td) = false -> denotes no_scope t n ->
    xml_document t s -> from_str x E fuel id s = OOk v -> own_documents x E fuel ids ts vs ->
    own_documents x E fuel (id :: ids) (t :: ts) (v :: vs).
