(** * Vocabulary for fields that are written by the implementations of the
      library (C71).

    The library implements [YaSerialize] for [usize], [isize], [char] and the
    simple types but [String] (yaserde/src/lib.rs:174-217).  The derive macros
    take the former for types of the user
    (yaserde_derive/src/common/field.rs:235-267), and a type parameter too:
    the field [g: G] of a generic struct is one of these types if the struct
    is used with such a [G]. *)
From Verif Require Import Str Num Xml XmlText Reader Schema Ser SpecText SpecEnc SpecPrint SpecOwn.
Open Scope list_scope.

(** Values of the first three are numbers; a [char] is its code. 64-bit
    targets. *)
Inductive std := StdUsize | StdIsize | StdChar | StdSimple (s : simple).
Definition within (lo hi z : Z) : bool := (Z.leb lo z && Z.ltb z hi)%bool.
(** [Display]; [None] on values of other types. *)
Definition std_text (x : ext) (k : std) (v : value) : option string :=
  match k, v with
  | StdUsize, VInt z => if within 0 (2 ^ 64) z then Some (show_Z z) else None
  | StdIsize, VInt z => if within (- 2 ^ 63) (2 ^ 63) z then Some (show_Z z) else None
  | StdChar, VInt z => if (within 0 55296 z || within 57344 1114112 z)%bool then Some (utf8 (Z.to_N z)) else None
  | StdSimple SString, _ => None
  | StdSimple s, _ => show_simple x s v
  | _, _ => None
  end.

(** [serialize_type!] (lib.rs:174-200): the characters and nothing else; the
    result of the write is dropped. *)
Definition std_writer (x : ext) (k : std) (v : value) : sm unit :=
  match std_text x k v with
  | Some t => swallow (write (WChars t))
  | None => sstuck
  end.
Definition std_writers (x : ext) (s : nat -> option std) : own_writers :=
  fun id => match s id with Some k => Some (std_writer x k, fun _ => SOk ([], [])) | None => None end.

(** What they are meant to write. *)
Definition std_trees (x : ext) (s : nat -> option std) : own_trees :=
  fun id => match s id with
            | Some k => Some (fun v _ => omap (fun t => [WTxt t]) (std_text x k v), fun _ => Some ([], []))
            | None => None
            end.

(** [to_string_with_config] when the types [s] tells are such types. *)
Definition std_document (x : ext) (E : env) (s : nat -> option std) (n : nat) (c : config) (id : nat) (v : value) : sres string :=
  match fst (ser_with x E (std_writers x s) n) id v (fun _ => false) w_init with
  | (SOk _, w) => SOk (emit_text (econf_of c) (w_evs w))
  | (SErr m, _) => SErr m
  | (SStuck, _) => SStuck
  end.

(** A struct all of whose fields are of such types, as elements or attributes,
    without further options; the texts of its values. *)
Definition std_field (x : ext) (s : nat -> option std) (f : field) (v : value) (t : string) : Prop :=
  (exists i k, f_ty f = TBase (BUser i) /\ s i = Some k /\ std_text x k v = Some t) /\
  ya_text (f_attrs f) = false /\ ya_cdata (f_attrs f) = false /\ ya_flatten (f_attrs f) = false /\
  ya_skip (f_attrs f) = false /\ ya_skip_if (f_attrs f) = None /\ ya_default (f_attrs f) = None.
Inductive std_fields (x : ext) (s : nat -> option std) : list field -> list value -> list string -> Prop :=
| std_nil : std_fields x s [] [] []
| std_cons : forall f v t fs vs ts, std_field x s f v t -> std_fields x s fs vs ts ->
    std_fields x s (f :: fs) (v :: vs) (t :: ts).

(** The attributes and the content. *)
Definition std_attributes (ra : yattr) (fs : list field) (ts : list string) : list attr :=
  flat_map (fun p => if ya_attribute (f_attrs (fst p))
                     then [Attr (qname (field_qname ra (fst p))) (with_references in_text (snd p))] else [])
           (combine fs ts).
Definition std_content (fs : list field) (ts : list string) : list wnode :=
  flat_map (fun p => if ya_attribute (f_attrs (fst p)) then [] else [WTxt (snd p)]) (combine fs ts).

(** Somewhere in the trees. *)
Fixpoint holds (w t : wnode) {struct t} : Prop :=
  w = t \/ match t with
           | WElem _ _ _ ks => (fix some (l : list wnode) : Prop := match l with [] => False | k :: r => holds w k \/ some r end) ks
           | _ => False
           end.
