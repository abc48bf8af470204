(** * The options in `#[yaserde(..)]`.

    yaserde_derive/src/common/attribute.rs:9-45: [YaSerdeAttribute] is read
    with the code that serde's `derive(Deserialize)` makes for it.  Macro.v
    takes the result as given; here it is computed from the options that are
    written, a list of names and values.

    Not modelled: what the crate serde_tokenstream makes of the tokens of one
    value.  A value is represented by its answers to the four questions that
    serde asks. *)
From Verif Require Import Str Num Xml XmlText Reader Schema Macro.
Open Scope list_scope.

(** The tokens of a value: read as a [bool], as a [String], as a
    [BTreeMap<String, String>] (the entries in their order), and passed over. *)
Record otok := OTok {
  as_bool : res bool;
  as_str : res string;
  as_map : res (list (string * string));
  as_any : res unit }.

(** [BTreeMap::insert]. *)
Fixpoint btree_insert (m : nsmap) (p u : string) : nsmap :=
  match m with
  | [] => [(p, u)]
  | (q, v) :: r =>
      match String.compare p q with
      | Lt => (p, u) :: m
      | Eq => (p, u) :: r
      | Gt => (q, v) :: btree_insert r p u
      end
  end.
Definition btree_of (l : list (string * string)) : nsmap :=
  fold_left (fun m pu => btree_insert m (fst pu) (snd pu)) l [].

(** The fields of [YaSerdeAttribute] (attribute.rs:10-45) by name: what the
    value must be read as, and where it is kept.  Other names are ignored, for
    there is no `deny_unknown_fields` (attribute.rs:9). *)
Definition set_option (k : string) (v : otok) (y : yattr) : option (res yattr) :=
  let '(YAttr a d dn fl ns p r t sk si tx cd) := y in
  let flag f := Some (rmap f (as_bool v)) in
  let text f := Some (rmap (fun s => f (Some s)) (as_str v)) in
  if String.eqb k "attribute" then flag (fun b => YAttr b d dn fl ns p r t sk si tx cd)
  else if String.eqb k "default" then text (fun s => YAttr a s dn fl ns p r t sk si tx cd)
  else if String.eqb k "default_namespace" then text (fun s => YAttr a d s fl ns p r t sk si tx cd)
  else if String.eqb k "flatten" then flag (fun b => YAttr a d dn b ns p r t sk si tx cd)
  else if String.eqb k "namespaces" then Some (rmap (fun l => YAttr a d dn fl (btree_of l) p r t sk si tx cd) (as_map v))
  else if String.eqb k "prefix" then text (fun s => YAttr a d dn fl ns s r t sk si tx cd)
  else if String.eqb k "rename" then text (fun s => YAttr a d dn fl ns p s t sk si tx cd)
  else if String.eqb k "tag" then text (fun s => YAttr a d dn fl ns p r s sk si tx cd)
  else if String.eqb k "skip_serializing" then flag (fun b => YAttr a d dn fl ns p r t b si tx cd)
  else if String.eqb k "skip_serializing_if" then text (fun s => YAttr a d dn fl ns p r t sk s tx cd)
  else if String.eqb k "text" then flag (fun b => YAttr a d dn fl ns p r t sk si b cd)
  else if String.eqb k "cdata" then flag (fun b => YAttr a d dn fl ns p r t sk si tx b)
  else None.

(** [visit_map] of the derived code: in the order written; a name that was
    there before is an error, a missing one is the default
    (`#[serde(default)]`, attribute.rs:12-44). *)
Fixpoint read_from (seen : list string) (y : yattr) (l : list (string * otok)) : res yattr :=
  match l with
  | [] => Ok y
  | (k, v) :: l' =>
      match set_option k v y with
      | Some r =>
          if existsb (String.eqb k) seen then Er ("duplicate field `" +++ k +++ "`")
          else rbind r (fun y' => read_from (k :: seen) y' l')
      | None => rbind (as_any v) (fun _ => read_from seen y l')
      end
  end.
Definition read_options (l : list (string * otok)) : res yattr := read_from [] ya0 l.

(** `#[yaserde(..)]` with these options (attribute.rs:56-68). *)
Definition yaserde_attr (l : list (string * otok)) : rattr := RAttr "yaserde" (MetaList (read_options l)).
