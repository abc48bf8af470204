(** * The value of a document: [decode] (SpecTree.v) closed under the texts
      that generated code builds and parses itself.

    Attributes of user type are read by parsing "<Type>value</Type>"; flattened
    fields are read by writing the rest of the struct's element and parsing it
    again.  Both are described here on trees; the number [k] bounds how often
    such documents are nested in each other.  The text of such an attribute is
    taken to be escaped character data: it is put into the document as it
    stands. *)
From Verif Require Import Str Num Xml XmlText Reader Schema De SpecTree SpecText.
Open Scope list_scope.

(** A tree as handed to a writer. *)
Fixpoint wn (t : node) : wnode :=
  match t with
  | Txt s => WTxt s
  | Elem n a m ks => WElem n a m (map wn ks)
  end.

(** Type names are identifiers. *)
Definition identifier (s : string) : Prop := xml_name s = true /\ split_colon s = None.

(** The document "<Type>s</Type>", for a text [s] after unescaping. *)
Definition wrapped (td : typedef) (s : string) : node :=
  Elem (Name (t_name td) None None) [] [] (text_node s).

Section Value.
  Variable x : ext.
  Variable E : env.

  Fixpoint value_of (k : nat) (top : bool) (id : nat) (t : node) : outcome value :=
    match k with
    | O => decode x E (fun _ _ => OPanic "not covered") (fun _ _ => OPanic "not covered") top id t
    | S k' =>
        decode x E
          (fun id s => match nth_error E id, unesc s with
                       | Some td, Some u => value_of k' true id (wrapped td u)
                       | _, _ => OPanic "unknown type"
                       end)
          (fun id r => value_of k' true id (reread [] (wn r)))
          top id t
    end.

  Fixpoint Conforms (k : nat) (id : nat) (t : node) : Prop :=
    match k with
    | O => Fits x E (fun _ _ => False) (fun _ _ => False) id t
    | S k' =>
        Fits x E
          (fun id s => exists td u, nth_error E id = Some td /\ identifier (t_name td) /\
                         s = esc_pcdata u /\ legal u = true /\ Conforms k' id (wrapped td u))
          (fun id r => Writable [] (wn r) /\ Conforms k' id (reread [] (wn r)))
          id t
    end.
End Value.

(** ** Reading

    [Reads x E id d t o]: whenever type [id] is deserialized by a reader that
    has [d] open elements and whose visible events go on with the element [t]
    (whatever follows), the outcome is [o]; the loops of the model need some
    fuel. *)
Definition Reads (x : ext) (E : env) (id d : nat) (t : node) (o : outcome value) : Prop :=
  exists N, forall fuel, N <= fuel ->
  forall evs tail f,
    filter (fun e => match e with EStartDoc | EPI _ | EComment _ => false | _ => true end) evs
      = flat t ++ tail ->
    fst (run (De.de x E fuel id) (DState d (Stream evs f) None)) = o.
