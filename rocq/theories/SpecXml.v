(** * A grammar of XML documents, independent of the parser.

    Numbers in brackets are productions of XML 1.0 (fifth edition) and of
    Namespaces in XML 1.0.  Simplifications: any byte from 128 on may be part
    of a name; carriage returns do not occur literally in texts and attribute
    values (XML turns them into line feeds); a document type declaration has
    no internal subset and no '>' in its literals; the declared encoding is UTF-8. *)
From Verif Require Import Str Xml Schema SpecTree.
Open Scope list_scope.

(** What a document says: elements with their qualified names, attributes with
    their values (namespace declarations among them) and contents. *)
Inductive xnode :=
| XElem (q : string) (ats : list (string * string)) (kids : list xnode)
| XTxt (s : string).

(** ** Characters *)
Definition every (P : ascii -> Prop) (s : string) : Prop := Forall P (list_ascii_of_string s).
Definition within (a s : string) : Prop := exists u v, s = u +++ a +++ v.

(** White space [3] and characters [2]. *)
Definition white (c : ascii) : Prop := c = " "%char \/ c = "009"%char \/ c = "010"%char \/ c = "013"%char.
Definition legal_char (c : ascii) : Prop := white c \/ 32 <= nat_of_ascii c.
Definition blank : string -> Prop := every white.
Definition spaces (s : string) : Prop := blank s /\ s <> "".

(** Names without colon, qualified names [NS 4, 7]. *)
Definition letter (c : ascii) : Prop :=
  let n := nat_of_ascii c in 65 <= n <= 90 \/ 97 <= n <= 122 \/ n = 95 \/ 128 <= n.
Definition name_part (c : ascii) : Prop :=
  letter c \/ 48 <= nat_of_ascii c <= 57 \/ c = "-"%char \/ c = "."%char.
Definition ncname (s : string) : Prop :=
  match s with EmptyString => False | String c r => letter c /\ every name_part r end.
Definition qualified (q : string) : Prop :=
  ncname q \/ exists p l, ncname p /\ ncname l /\ q = p +++ ":" +++ l.

(** ** References [66], [68] *)
Definition digit (c : ascii) (d : nat) : Prop :=
  String.get d "0123456789abcdef" = Some c \/ String.get d "0123456789ABCDEF" = Some c.
Inductive numeral (b : nat) : string -> N -> Prop :=
| num_one : forall c d, digit c d -> d < b -> numeral b (String c "") (N.of_nat d)
| num_more : forall s n c d, numeral b s n -> digit c d -> d < b ->
    numeral b (s +++ String c "") (n * N.of_nat b + N.of_nat d)%N.

(** Code points of characters [2]. *)
Definition code_point (n : N) : Prop :=
  (n = 9 \/ n = 10 \/ n = 13 \/ 32 <= n <= 55295 \/ 57344 <= n <= 65533 \/ 65536 <= n <= 1114111)%N.

(** The text between '&' and ';', and what it stands for. *)
Inductive reference : string -> string -> Prop :=
| ref_lt : reference "lt" "<"
| ref_gt : reference "gt" ">"
| ref_amp : reference "amp" "&"
| ref_quot : reference "quot" """"
| ref_apos : reference "apos" "'"
| ref_dec : forall s n, numeral 10 s n -> code_point n -> reference ("#" +++ s) (utf8 n)
| ref_hex : forall s n, numeral 16 s n -> code_point n -> reference ("#x" +++ s) (utf8 n).

(** Characters and references; [lit c v]: the literal character [c] stands for
    [v]. *)
Inductive spelled (lit : ascii -> ascii -> Prop) : string -> string -> Prop :=
| sp_none : spelled lit "" ""
| sp_char : forall c v s t, lit c v -> spelled lit s t -> spelled lit (String c s) (String v t)
| sp_ref : forall r v s t, reference r v -> spelled lit s t -> spelled lit ("&" +++ r +++ ";" +++ s) (v +++ t).

(** ** Attributes [41], [10]; white space counts as a space [3.3.3] *)
Definition in_value (q c v : ascii) : Prop :=
  legal_char c /\ c <> q /\ c <> "<"%char /\ c <> "&"%char /\ c <> "013"%char /\
  (white c /\ v = " "%char \/ ~ white c /\ v = c).
Inductive attribute : string * string -> string -> Prop :=
| attribute_intro : forall w1 k w2 w3 q s v,
    spaces w1 -> qualified k -> blank w2 -> blank w3 -> q = """"%char \/ q = "'"%char ->
    spelled (in_value q) s v ->
    attribute (k, v) (w1 +++ k +++ w2 +++ "=" +++ w3 +++ String q (s +++ String q "")).
Inductive attributes : list (string * string) -> string -> Prop :=
| as_none : attributes [] ""
| as_more : forall a l s t, attribute a s -> attributes l t -> attributes (a :: l) (s +++ t).

(** ** Texts *)
(** Character data [14]. *)
Definition in_text (c v : ascii) : Prop :=
  legal_char c /\ c <> "<"%char /\ c <> "&"%char /\ c <> "013"%char /\ v = c.
Definition characters (s t : string) : Prop := spelled in_text s t /\ ~ within "]]>" s.

(** CDATA sections [18-21] and comments [15], with what they add to the text. *)
Definition comment (s : string) : Prop :=
  exists c, every legal_char c /\ ~ within "--" (c +++ "-") /\ s = "<!--" +++ c +++ "-->".
Definition cdata (s t : string) : Prop :=
  every legal_char t /\ every (fun c => c <> "013"%char) t /\ ~ within "]]>" t /\ s = "<![CDATA[" +++ t +++ "]]>".
Definition inserted (s t : string) : Prop := cdata s t \/ comment s /\ t = "".

(** The text up to the next tag or processing instruction. *)
Inductive text_run : string -> string -> Prop :=
| run_end : forall s t, characters s t -> text_run s t
| run_more : forall s t i u s' t', characters s t -> inserted i u -> text_run s' t' ->
    text_run (s +++ i +++ s') (t +++ u +++ t').

(** yaserde's reader drops white space around texts, and texts without
    anything else. *)
Definition starts_dark (s : string) : Prop := match s with EmptyString => False | String c _ => ~ white c end.
Definition ends_dark (s : string) : Prop := exists u c, s = u +++ String c "" /\ ~ white c.
Inductive text_nodes : string -> list xnode -> Prop :=
| tn_none : forall t, blank t -> text_nodes t []
| tn_some : forall u s v, blank u -> blank v -> starts_dark s -> ends_dark s -> text_nodes (u +++ s +++ v) [XTxt s].

(** ** Processing instructions [16, 17]: not named xml *)
Definition pi (s : string) : Prop :=
  exists t d, ncname t /\
    (forall a b c, t = String a (String b (String c "")) ->
       ~ ((a = "x"%char \/ a = "X"%char) /\ (b = "m"%char \/ b = "M"%char) /\ (c = "l"%char \/ c = "L"%char))) /\
    (d = "" \/ exists c r, d = String c r /\ white c) /\ every legal_char d /\ ~ within "?>" d /\
    s = "<?" +++ t +++ d +++ "?>".

(** ** Elements [39-44] *)
Inductive element : xnode -> string -> Prop :=
| el_empty : forall q ats a w, qualified q -> attributes ats a -> blank w ->
    element (XElem q ats []) ("<" +++ q +++ a +++ w +++ "/>")
| el_full : forall q ats a w kids c w', qualified q -> attributes ats a -> blank w -> inside kids c -> blank w' ->
    element (XElem q ats kids) ("<" +++ q +++ a +++ w +++ ">" +++ c +++ "</" +++ q +++ w' +++ ">")
with inside : list xnode -> string -> Prop :=
| co_end : forall s t ts, text_run s t -> text_nodes t ts -> inside ts s
| co_element : forall s t ts e se ks sk, text_run s t -> text_nodes t ts -> element e se -> inside ks sk ->
    inside (ts ++ e :: ks) (s +++ se +++ sk)
| co_pi : forall s t ts p ks sk, text_run s t -> text_nodes t ts -> pi p -> inside ks sk ->
    inside (ts ++ ks) (s +++ p +++ sk).

(** ** Documents [1], [22-28] *)
Inductive misc : string -> Prop :=
| mi_none : misc ""
| mi_blank : forall w s, blank w -> misc s -> misc (w +++ s)
| mi_comment : forall c s, comment c -> misc s -> misc (c +++ s)
| mi_pi : forall p s, pi p -> misc s -> misc (p +++ s).

Definition pseudo (k : string) (vs : list string) (s : string) : Prop :=
  exists w1 w2 w3 q v, spaces w1 /\ blank w2 /\ blank w3 /\ (q = """"%char \/ q = "'"%char) /\ In v vs /\
    s = w1 +++ k +++ w2 +++ "=" +++ w3 +++ String q (v +++ String q "").
Definition declaration (s : string) : Prop :=
  s = "" \/
  exists v e a w, pseudo "version" ["1.0"] v /\ (e = "" \/ pseudo "encoding" ["UTF-8"; "utf-8"] e) /\
    (a = "" \/ pseudo "standalone" ["yes"; "no"] a) /\ blank w /\ s = "<?xml" +++ v +++ e +++ a +++ w +++ "?>".

(** Literals and external identifiers [11, 12], [75]; document type
    declarations [28]. *)
Definition literal (s : string) : Prop :=
  exists q v, (q = """"%char \/ q = "'"%char) /\ every (fun c => legal_char c /\ c <> q /\ c <> ">"%char) v /\
    s = String q (v +++ String q "").
Definition external_id (s : string) : Prop :=
  (exists w l, spaces w /\ literal l /\ s = "SYSTEM" +++ w +++ l) \/
  (exists w l w' l', spaces w /\ literal l /\ spaces w' /\ literal l' /\ s = "PUBLIC" +++ w +++ l +++ w' +++ l').
Definition doctype (s : string) : Prop :=
  s = "" \/
  exists w n e w' m, spaces w /\ qualified n /\ (e = "" \/ exists w1 i, spaces w1 /\ external_id i /\ e = w1 +++ i) /\
    blank w' /\ misc m /\ s = "<!DOCTYPE" +++ (w +++ n +++ e +++ w') +++ ">" +++ m.

Definition xml_document (t : xnode) (s : string) : Prop :=
  exists d m1 y e m2, declaration d /\ misc m1 /\ doctype y /\ element t e /\ misc m2 /\
    s = d +++ m1 +++ y +++ e +++ m2.

(** The same with the system literals of XML [11], which may contain '>'. *)
Definition system_literal (s : string) : Prop :=
  exists q v, (q = """"%char \/ q = "'"%char) /\ every (fun c => legal_char c /\ c <> q) v /\ s = String q (v +++ String q "").
Definition any_external_id (s : string) : Prop :=
  (exists w l, spaces w /\ system_literal l /\ s = "SYSTEM" +++ w +++ l) \/
  (exists w l w' l', spaces w /\ literal l /\ spaces w' /\ system_literal l' /\ s = "PUBLIC" +++ w +++ l +++ w' +++ l').
Definition any_doctype (s : string) : Prop :=
  s = "" \/
  exists w n e w' m, spaces w /\ qualified n /\ (e = "" \/ exists w1 i, spaces w1 /\ any_external_id i /\ e = w1 +++ i) /\
    blank w' /\ misc m /\ s = "<!DOCTYPE" +++ (w +++ n +++ e +++ w') +++ ">" +++ m.
Definition any_document (t : xnode) (s : string) : Prop :=
  exists d m1 y e m2, declaration d /\ misc m1 /\ any_doctype y /\ element t e /\ misc m2 /\
    s = d +++ m1 +++ y +++ e +++ m2.

(** ** Namespaces: the tree a document describes *)
Definition scope := string -> option string.
Definition no_scope : scope := fun _ => None.
(** "xmlns" and "xmlns:p" attributes. *)
Definition declares (k : string) (p : string) : Prop :=
  k = "xmlns" /\ p = "" \/ k = "xmlns:" +++ p /\ p <> "".
Definition opens_scope (sc : scope) (ats : list (string * string)) (sc' : scope) : Prop :=
  forall p, (exists k u, In (k, u) ats /\ declares k p /\ sc' p = Some u) \/
            ((forall k u, In (k, u) ats -> ~ declares k p) /\ sc' p = sc p).
(** What may be declared [NS 3]; xml-rs does not want the names "xml" and
    "xmlns" as default namespace either. *)
Definition xml_namespace := "http://www.w3.org/XML/1998/namespace".
Definition xmlns_namespace := "http://www.w3.org/2000/xmlns/".
Definition may_declare (p u : string) : Prop :=
  p <> "xmlns" /\ (p <> "" -> ncname p /\ u <> "") /\ (p = "xml" <-> u = xml_namespace) /\ u <> xmlns_namespace /\
  (p = "" -> u <> "xml" /\ u <> "xmlns").
Definition bound_to (sc : scope) (p u : string) : Prop :=
  if String.eqb p "xml" then u = xml_namespace else sc p = Some u.

(** Element names without prefix are in the default namespace (the empty URI
    is none), attributes without prefix in none. *)
Inductive elem_name (sc : scope) : string -> name -> Prop :=
| en_prefixed : forall p l u, ncname p -> ncname l -> bound_to sc p u -> elem_name sc (p +++ ":" +++ l) (Name l (Some u) (Some p))
| en_default : forall l u, ncname l -> sc "" = Some u -> u <> "" -> elem_name sc l (Name l (Some u) None)
| en_none : forall l, ncname l -> sc "" = None \/ sc "" = Some "" -> elem_name sc l (Name l None None).
Inductive attr_names (sc : scope) : list (string * string) -> list attr -> Prop :=
| an_end : attr_names sc [] []
| an_declaration : forall k u l al p, declares k p -> attr_names sc l al -> attr_names sc ((k, u) :: l) al
| an_plain : forall k v l al, ncname k -> k <> "xmlns" -> attr_names sc l al ->
    attr_names sc ((k, v) :: l) (Attr (Name k None None) v :: al)
| an_prefixed : forall p k u v l al, ncname p -> ncname k -> p <> "xmlns" -> bound_to sc p u -> attr_names sc l al ->
    attr_names sc ((p +++ ":" +++ k, v) :: l) (Attr (Name k (Some u) (Some p)) v :: al).

(** The bindings in scope, sorted by prefix, as the reader passes them on with
    a start tag. *)
Fixpoint sorted (m : nsmap) : Prop :=
  match m with
  | [] => True
  | (p, _) :: r => (forall q u, In (q, u) r -> String.compare p q = Lt) /\ sorted r
  end.
Definition lists (m : nsmap) (sc : scope) : Prop := sorted m /\ forall p, ns_get m p = sc p.

Inductive denotes : scope -> xnode -> node -> Prop :=
| de_txt : forall sc s, denotes sc (XTxt s) (Txt s)
| de_elem : forall sc sc' q ats kids n al m ks,
    NoDup (map fst ats) -> (forall k u p, In (k, u) ats -> declares k p -> may_declare p u) ->
    opens_scope sc ats sc' -> elem_name sc' q n -> attr_names sc' ats al -> lists m sc' ->
    Forall2 (denotes sc') kids ks ->
    denotes sc (XElem q ats kids) (Elem n al m ks).
