(** * XML names, namespaces and events (the xml-rs vocabulary).

    xml-rs is an external dependency (yaserde/Cargo.toml: xml-rs = "0.8.3").
    This file models the part of its interface that yaserde uses:
    [xml::name::OwnedName], [xml::attribute::OwnedAttribute],
    [xml::namespace::Namespace], [xml::reader::XmlEvent] and
    [xml::writer::XmlEvent]. *)
From Verif Require Import Str.

(** [OwnedName { local_name, namespace, prefix }]. *)
Record name := Name {
  n_local : string;
  n_ns : option string;
  n_prefix : option string }.

Definition name_eqb (a b : name) : bool :=
  (String.eqb (n_local a) (n_local b)
   && opt_eqb (n_ns a) (n_ns b)
   && opt_eqb (n_prefix a) (n_prefix b))%bool.

(** [OwnedAttribute { name, value }]. *)
Record attr := Attr { at_name : name; at_value : string }.

(** [Namespace(BTreeMap<prefix, uri>)]: an association list kept sorted by
    prefix; the empty prefix is the default namespace. *)
Definition nsmap := list (string * string).

Fixpoint ns_get (m : nsmap) (p : string) : option string :=
  match m with
  | [] => None
  | (q, u) :: r => if String.eqb q p then Some u else ns_get r p
  end.

(** [Namespace::put]: insert unless the prefix is already bound. *)
Fixpoint ns_put (m : nsmap) (p u : string) : nsmap :=
  match m with
  | [] => [(p, u)]
  | (q, v) :: r =>
      match String.compare p q with
      | Lt => (p, u) :: m
      | Eq => m
      | Gt => (q, v) :: ns_put r p u
      end
  end.

(** [Namespace::extend]. *)
Definition ns_extend (m : nsmap) (m2 : nsmap) : nsmap :=
  fold_left (fun acc pu => ns_put acc (fst pu) (snd pu)) m2 m.

(** [xml::reader::XmlEvent].  [EDoctype] is not delivered by this xml-rs
    interface and is left out; payloads that yaserde never looks at
    (document version, processing-instruction data) are dropped. *)
Inductive event :=
| EStartDoc
| EEndDoc
| EPI (target : string)
| EStart (n : name) (attrs : list attr) (ns : nsmap)
| EEnd (n : name)
| EChars (s : string)
| ECData (s : string)
| EComment (s : string)
| EWhitespace (s : string).

(** [xml::writer::XmlEvent], the constructors used by yaserde:
    [start_element], [end_element], [characters], [cdata]. An end event
    carries a name only when it was converted from a reader event. *)
Inductive wevent :=
| WStart (n : name) (attrs : list attr) (ns : nsmap)
| WEnd (n : option name)
| WChars (s : string)
| WCData (s : string).

(** [Name::from(&str)]: "p:l" is split at the first colon. *)
Fixpoint split_colon (s : string) : option (string * string) :=
  match s with
  | EmptyString => None
  | String c r =>
      if Ascii.eqb c ":" then Some (EmptyString, r)
      else match split_colon r with
           | Some (p, l) => Some (String c p, l)
           | None => None
           end
  end%char.

Definition qname (s : string) : name :=
  match split_colon s with
  | Some (p, l) => Name l None (Some p)
  | None => Name s None None
  end.

(** [Name::repr_display]: how a name is written. *)
Definition name_repr (n : name) : string :=
  match n_prefix n with
  | Some p => p +++ ":" +++ n_local n
  | None => n_local n
  end.

(** ** The emitter's element stack

    [EventWriter::write] keeps the names of the open elements
    ([keep_element_names_stack], on by default) and rejects an end event when
    no element is open, or when it carries a name different from the innermost
    open element.  The stack is popped even when the names differ. *)
Definition emit_check (stack : list name) (e : wevent) : list name * bool :=
  match e with
  | WStart n _ _ => (n :: stack, true)
  | WEnd on =>
      match stack with
      | [] => ([], false)
      | top :: rest =>
          match on with
          | None => (rest, true)
          | Some n => (rest, name_eqb top n)
          end
      end
  | WChars _ | WCData _ => (stack, true)
  end.

(** [reader::XmlEvent::as_writer_event]: [None] for [EndDocument].
    Events that yaserde's parser configuration never delivers to this point
    (declaration, PI, comment: filtered by [inner_next]; CDATA, whitespace:
    converted to characters) are mapped like xml-rs does where they have a
    counterpart in [wevent]. *)
Definition as_writer_event (e : event) : option wevent :=
  match e with
  | EStart n a ns => Some (WStart n a ns)
  | EEnd n => Some (WEnd (Some n))
  | EChars s => Some (WChars s)
  | ECData s => Some (WCData s)
  | EWhitespace s => Some (WChars s)
  | EComment _ | EPI _ | EStartDoc | EEndDoc => None
  end.

(** ** Namespace scopes

    [NamespaceStack]: innermost scope first. *)
Definition nsstack := list nsmap.

Fixpoint nss_get (st : nsstack) (p : string) : option string :=
  match st with
  | [] => None
  | m :: r => match ns_get m p with Some u => Some u | None => nss_get r p end
  end.

(** [NamespaceStack::put_checked]: a binding is declared on the new element
    only if no enclosing scope (nor the new one) has that very binding. *)
Definition nss_has (st : nsstack) (p u : string) : bool :=
  existsb (fun m => match ns_get m p with Some v => String.eqb v u | None => false end) st.

Definition declare (st : nsstack) (ns : nsmap) : nsmap :=
  fold_left
    (fun cur pu => if nss_has (cur :: st) (fst pu) (snd pu) then cur
                   else ns_put cur (fst pu) (snd pu)) ns [].

(** [NamespaceStack::squash]: all bindings in scope, innermost first wins. *)
Definition squash (st : nsstack) : nsmap := fold_left ns_extend st [].
