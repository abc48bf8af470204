(** * Specification of writing a document tree as text and reading it back.

    Trees as the writer sees them: names as given (prefix and local name), the
    namespace bindings wanted on an element, text and CDATA pieces.
    [reread] says which tree the reader must get from the written text. *)
From Verif Require Import Str Xml XmlText Reader Schema SpecTree.
Open Scope list_scope.

Inductive wnode :=
| WElem (n : name) (attrs : list attr) (ns : nsmap) (kids : list wnode)
| WTxt (s : string)
| WCd (s : string).

(** Writer events of a tree (end events without a name, as the serializer
    issues them). *)
Fixpoint wtree (w : wnode) : list wevent :=
  match w with
  | WTxt s => [WChars s]
  | WCd s => [WCData s]
  | WElem n a m ks => WStart n a m :: flat_map wtree ks ++ [WEnd None]
  end.

(** Names with their namespace, in a scope. *)
Definition rname (nss : nsstack) (n : name) : name :=
  match n_prefix n with
  | Some p => Name (n_local n) (lookup_prefix nss p) (Some p)
  | None => Name (n_local n)
              (match nss_get nss "" with
               | Some u => if String.eqb u "" then None else Some u
               | None => None
               end) None
  end.
(** Tabs in attribute values are read as spaces (line ends are written as
    references). *)
Fixpoint untab (s : string) : string :=
  match s with
  | EmptyString => EmptyString
  | String c r => String (if Ascii.eqb c "009" then " "%char else c) (untab r)
  end.
Definition rattr (nss : nsstack) (a : attr) : attr :=
  Attr (match n_prefix (at_name a) with
        | Some p => Name (n_local (at_name a)) (lookup_prefix nss p) (Some p)
        | None => Name (n_local (at_name a)) None None
        end) (untab (at_value a)).

(** Adjacent text pieces become one text; surrounding white space is dropped,
    as is text that is only white space. *)
Definition text_node (buf : string) : list node :=
  if str_nonws buf then [Txt (trim buf)] else [].

Fixpoint reread (nss : nsstack) (w : wnode) {struct w} : node :=
  match w with
  | WElem n a m ks =>
      let nss' := declare nss m :: nss in
      Elem (rname nss' n) (map (rattr nss') a) (squash nss')
        ((fix go (l : list wnode) (buf : string) : list node :=
            match l with
            | [] => text_node buf
            | k :: r =>
                match k with
                | WTxt s | WCd s => go r (buf +++ s)
                | WElem _ _ _ _ => text_node buf ++ reread nss' k :: go r ""
                end
            end) ks "")
  | WTxt s | WCd s => Txt s
  end.

Fixpoint reread_kids (nss : nsstack) (l : list wnode) (buf : string) : list node :=
  match l with
  | [] => text_node buf
  | k :: r =>
      match k with
      | WTxt s | WCd s => reread_kids nss r (buf +++ s)
      | WElem _ _ _ _ => text_node buf ++ reread nss k :: reread_kids nss r ""
      end
  end.

(** ** Writable trees *)

(** No control characters. *)
Definition legal (s : string) : bool := all_chars (fun c => negb (illegal_char c)) s.
(** And no tab: read back unchanged from an attribute. *)
Definition legal_attr (s : string) : bool :=
  (legal s && all_chars (fun c => negb (Ascii.eqb c "009")) s)%bool.

Definition xml_name (s : string) : bool :=
  match s with
  | EmptyString => false
  | String c r => (is_name_start c && all_chars is_name_char r)%bool
  end.

(** A name without a colon. *)
Definition simple_name (s : string) : Prop := xml_name s = true /\ split_colon s = None.
(** A name that is written and split again into the same prefix and local
    name. *)
Definition good_name (n : name) : Prop :=
  (xml_name (name_repr n) = true /\
   simple_name (n_local n) /\ match n_prefix n with Some p => simple_name p | None => True end) /\
  qname (name_repr n) = Name (n_local n) None (n_prefix n).

Definition bound (nss : nsstack) (n : name) : Prop :=
  match n_prefix n with Some p => lookup_prefix nss p <> None | None => True end.

Definition good_attr (nss : nsstack) (a : attr) : Prop :=
  good_name (at_name a) /\ bound nss (at_name a) /\ legal (at_value a) = true /\
  n_prefix (at_name a) <> Some "xmlns" /\
  (n_prefix (at_name a) = None -> n_local (at_name a) <> "xmlns").

(** A namespace declaration: a proper prefix, or the default namespace; "xml",
    "xmlns" and their namespaces cannot be declared. *)
Definition reserved : list string := ["xml"; "xmlns"; xml_uri; xmlns_uri].
Definition good_decl (p : string * string) : Prop :=
  (legal_attr (snd p) = true /\ ~ In (snd p) reserved) /\
  fst p <> "xml" /\ fst p <> "xmlns" /\
  ((fst p = "" \/ simple_name (fst p)) /\ snd p <> "").

Fixpoint contains (t s : string) : bool :=
  match s with
  | EmptyString => String.eqb t ""
  | String c r => (String.prefix t s || contains t r)%bool
  end.

Inductive Writable : nsstack -> wnode -> Prop :=
| w_txt : forall nss s, legal s = true -> Writable nss (WTxt s)
| w_cd : forall nss s, legal s = true -> contains "]]>" s = false -> Writable nss (WCd s)
| w_elem : forall nss n a m ks,
    good_name n -> bound (declare nss m :: nss) n ->
    (forall t, In t a -> good_attr (declare nss m :: nss) t) ->
    NoDup (map (fun t => name_repr (at_name t)) a) ->
    (forall p, In p (declare nss m) -> good_decl p) ->
    (forall k, In k ks -> Writable (declare nss m :: nss) k) ->
    Writable nss (WElem n a m ks).

(** The documents: one element. *)
Definition is_elem (w : wnode) : Prop := match w with WElem _ _ _ _ => True | _ => False end.

(** ** Bindings, sorted by prefix as in a [BTreeMap] *)
Definition above (p : string) (m : nsmap) : Prop := forall q u, In (q, u) m -> String.compare p q = Lt.
Fixpoint ns_sorted (m : nsmap) : Prop :=
  match m with [] => True | (p, _) :: r => above p r /\ ns_sorted r end.
