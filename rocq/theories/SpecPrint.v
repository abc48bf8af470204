(** * Vocabulary for the written text (C69).

    Which text a document tree is written as, by recursion on the tree: no
    writer events, no stack of open elements, no flags. *)
From Verif Require Import Str Xml Ser SpecText.
Open Scope string_scope.

(** Texts with some characters written as references. *)
Fixpoint with_references (table : list (ascii * string)) (s : string) : string :=
  match s with
  | EmptyString => ""
  | String c r =>
      match find (fun p => Ascii.eqb (fst p) c) table with
      | Some (_, t) => t +++ with_references table r
      | None => String c (with_references table r)
      end
  end.
Definition in_text : list (ascii * string) := [("<"%char, "&lt;"); (">"%char, "&gt;"); ("&"%char, "&amp;")].
Definition in_value : list (ascii * string) :=
  [("<"%char, "&lt;"); (">"%char, "&gt;"); ("&"%char, "&amp;"); (""""%char, "&quot;"); ("'"%char, "&apos;"); ("010"%char, "&#xA;"); ("013"%char, "&#xD;")].

Definition tag_name (n : name) : string :=
  match n_prefix n with Some p => p +++ ":" +++ n_local n | None => n_local n end.
Definition assigned (n v : string) : string := " " +++ n +++ "=""" +++ with_references in_value v +++ """".

(** Bindings written on an element: those wanted that are not already written
    on an enclosing one ([outer]), by prefix; the first one for each prefix. *)
Definition bound_on (m : nsmap) (p u : string) : bool :=
  match ns_get m p with Some v => String.eqb u v | None => false end.
Definition bindings (outer : list nsmap) (m : nsmap) : nsmap :=
  ns_extend [] (filter (fun b => negb (existsb (fun o => bound_on o (fst b) (snd b)) outer)) m).
(** The prefixes [xml] and [xmlns] cannot be declared, nor the absence of a
    default namespace. *)
Definition declaration (b : string * string) : string :=
  match b with
  | ("xml", _) | ("xmlns", _) | ("", "") => ""
  | ("", u) => assigned "xmlns" u
  | (p, u) => assigned ("xmlns:" +++ p) u
  end.
Fixpoint joined (l : list string) : string := match l with [] => "" | s :: r => s +++ joined r end.

(** A new line at depth [lvl]; none without indentation. *)
Definition new_line (ind : option string) (lvl : nat) : string :=
  match ind with Some i => String "010" (joined (repeat i lvl)) | None => "" end.

Definition is_element (w : wnode) : bool := match w with WElem _ _ _ _ => true | _ => false end.

Section Trees.
  Variable ind : option string.
  (** The text of one tree at some depth inside of elements with some bindings. *)
  Variable print : nat -> list nsmap -> wnode -> string.
  (** Trees beside each other: elements begin on new lines as long as no text
      came before them, the first one only if something is before it. *)
  Fixpoint print_all (lvl : nat) (outer : list nsmap) (at_start after_text : bool) (l : list wnode) : string :=
    match l with
    | [] => ""
    | w :: r =>
        (if (is_element w && negb at_start && negb after_text)%bool then new_line ind lvl else "")
        +++ print lvl outer w
        +++ print_all lvl outer (at_start && negb (is_element w)) (after_text || negb (is_element w)) r
    end.
End Trees.

(** Elements without content are written as one tag.  The end tag is on a line
    of its own if the element has elements only. *)
Fixpoint print (ind : option string) (lvl : nat) (outer : list nsmap) (w : wnode) {struct w} : string :=
  match w with
  | WTxt s => with_references in_text s
  | WCd s => "<![CDATA[" +++ s +++ "]]>"
  | WElem n a m ks =>
      let d := bindings outer m in
      "<" +++ tag_name n +++ joined (map declaration d) +++ joined (map (fun b => assigned (tag_name (at_name b)) (at_value b)) a) +++
      match ks with
      | [] => " />"
      | _ => ">" +++ print_all ind (print ind) (S lvl) (d :: outer) false false ks
             +++ (if forallb is_element ks then new_line ind lvl else "") +++ "</" +++ tag_name n +++ ">"
      end
  end.

(** Documents: the declaration, and the trees. *)
Definition indentation_of (c : config) : option string :=
  if c_indent c then Some (match c_indent_string c with Some i => i | None => "  " end) else None.
Definition page (c : config) (ts : list wnode) : string :=
  match ts with
  | [] => ""
  | _ => (if c_decl c then "<?xml version=""1.0"" encoding=""utf-8""?>" else "")
         +++ print_all (indentation_of c) (print (indentation_of c)) 0 [] (negb (c_decl c)) false ts
  end.
