(** * XML text: the xml-rs emitter and parser.

    External crate, modelled from its documented behaviour; part of the
    trusted base (see DESIGN.md).  Configuration: the emitter as set up by
    [Serializer::new_from_writer] / [EventWriter::new]
    (yaserde/src/ser/mod.rs:72-89, expand_struct.rs:534-537), the parser as
    set up by [Deserializer::new_from_reader] (yaserde/src/de/mod.rs:32-41). *)
From Verif Require Import Str Xml.
From Coq Require Import NArith.
Open Scope string_scope.

(** ** Escaping *)

(** xml-rs [escape_str_pcdata]. *)
Definition esc_pcdata_char (c : ascii) : string :=
  if Ascii.eqb c "<" then "&lt;"
  else if Ascii.eqb c ">" then "&gt;"
  else if Ascii.eqb c "&" then "&amp;"
  else String c "".

Fixpoint esc_pcdata (s : string) : string :=
  match s with
  | EmptyString => EmptyString
  | String c r => esc_pcdata_char c +++ esc_pcdata r
  end.

(** xml-rs [escape_str_attribute]. *)
Definition esc_attr_char (c : ascii) : string :=
  if Ascii.eqb c "<" then "&lt;"
  else if Ascii.eqb c ">" then "&gt;"
  else if Ascii.eqb c """" then "&quot;"
  else if Ascii.eqb c "'" then "&apos;"
  else if Ascii.eqb c "&" then "&amp;"
  else if Ascii.eqb c "010" then "&#xA;"
  else if Ascii.eqb c "013" then "&#xD;"
  else String c "".

Fixpoint esc_attr (s : string) : string :=
  match s with
  | EmptyString => EmptyString
  | String c r => esc_attr_char c +++ esc_attr r
  end.

(** ** Emitter *)

Record econf := EConf {
  ec_decl : bool;                 (* write_document_declaration *)
  ec_indent : option string }.    (* perform_indent with this indent_string *)

(** Emitter state: [em_just] = [just_wrote_start_element] (the '>' of the last
    start tag is still pending, so that an immediately following end tag is
    written as " />"); [em_names] = open elements; [em_nss] = namespace
    scopes; [em_flags] = for every open element (and the document) whether
    markup / text was written directly inside it (only used for
    indentation). *)
Record emst := Emst {
  em_just : bool;
  em_names : list name;
  em_nss : nsstack;
  em_flags : list (bool * bool) }.

(** Initial state; writing the declaration counts as markup. *)
Definition em0 (decl : bool) : emst := Emst false [] [] [(decl, false)].

Definition show_attr (p : string * string) : string :=
  " " +++ fst p +++ "=""" +++ esc_attr (snd p) +++ """".

Definition show_attrs (l : list attr) : string :=
  String.concat "" (map (fun a => show_attr (name_repr (at_name a), at_value a)) l).

Definition show_ns1 (p : string * string) : string :=
  if String.eqb (fst p) "xml" then ""
  else if String.eqb (fst p) "xmlns" then ""
  else if String.eqb (fst p) "" then
    (if String.eqb (snd p) "" then "" else show_attr ("xmlns", snd p))
  else show_attr ("xmlns:" +++ fst p, snd p).

Definition show_ns (m : nsmap) : string := String.concat "" (map show_ns1 m).

Definition top_flags (l : list (bool * bool)) : bool * bool :=
  match l with [] => (false, false) | f :: _ => f end.
Definition set_markup (l : list (bool * bool)) : list (bool * bool) :=
  match l with [] => [] | (_, t) :: r => (true, t) :: r end.
Definition set_text_flag (l : list (bool * bool)) : list (bool * bool) :=
  match l with [] => [] | (m, _) :: r => (m, true) :: r end.

Fixpoint repeat_str (n : nat) (s : string) : string :=
  match n with O => "" | S k => s +++ repeat_str k s end.

Definition nl : string := String "010" "".

(** Newline and indentation before a start tag ([before_markup]): only when
    indenting, no text was written in the enclosing element, and this is not
    the very first markup. *)
Definition indent_before_start (c : econf) (st : emst) : string :=
  match ec_indent c with
  | None => ""
  | Some ind =>
      let '(mk, tx) := top_flags (em_flags st) in
      let lvl := List.length (em_names st) in
      if (negb tx && (Nat.ltb 0 lvl || mk))%bool
      then nl +++ repeat_str lvl ind else ""
  end.

(** Newline and indentation before an end tag ([before_end_element]): only
    when indenting and the element contains markup and no text. *)
Definition indent_before_end (c : econf) (st : emst) : string :=
  match ec_indent c with
  | None => ""
  | Some ind =>
      let '(mk, tx) := top_flags (em_flags st) in
      if (mk && negb tx)%bool
      then nl +++ repeat_str (List.length (em_names st) - 1) ind else ""
  end.

(** One event: text written and next state. *)
Definition emit1 (c : econf) (st : emst) (e : wevent) : string * emst :=
  let fix_ := if em_just st then ">" else "" in
  match e with
  | WStart n attrs ns =>
      let d := declare (em_nss st) ns in
      (fix_ +++ indent_before_start c st +++ "<" +++ name_repr n
         +++ show_ns d +++ show_attrs attrs,
       Emst true (n :: em_names st) (d :: em_nss st)
            ((false, false) :: set_markup (em_flags st)))
  | WEnd on =>
      match em_names st with
      | [] => ("", st)
      | top :: rest =>
          (if em_just st then " />"
           else indent_before_end c st +++ "</" +++ name_repr top +++ ">",
           Emst false rest (tl (em_nss st)) (set_markup (tl (em_flags st))))
      end
  | WChars s =>
      (fix_ +++ esc_pcdata s,
       Emst false (em_names st) (em_nss st) (set_text_flag (em_flags st)))
  | WCData s =>
      (fix_ +++ "<![CDATA[" +++ s +++ "]]>",
       Emst false (em_names st) (em_nss st) (set_text_flag (em_flags st)))
  end.

Fixpoint emit_from (c : econf) (st : emst) (l : list wevent) : string :=
  match l with
  | [] => ""
  | e :: r => let '(t, st') := emit1 c st e in t +++ emit_from c st' r
  end.

Definition xml_decl : string :=
  "<?xml version=""1.0"" encoding=""utf-8""?>".

(** The whole text: the declaration is written together with the first
    event. *)
Definition emit_text (c : econf) (l : list wevent) : string :=
  match l with
  | [] => ""
  | _ => (if ec_decl c then xml_decl else "") +++ emit_from c (em0 (ec_decl c)) l
  end.

(** ** Parser *)

(** What the parser delivers: events, then a final result that is returned
    again by every later call ([PullParser::next] returns the stored
    [final_result]). *)
Inductive fin := FEnd | FErr (msg : string).
Record stream := Stream { s_evs : list event; s_fin : fin }.

Definition is_alnum (c : ascii) : bool :=
  let n := nat_of_ascii c in
  ((Nat.leb 48 n && Nat.leb n 57) || (Nat.leb 65 n && Nat.leb n 90)
   || (Nat.leb 97 n && Nat.leb n 122) || Nat.leb 128 n)%bool.

(** Name characters (non-ASCII ones are all admitted: simplification). *)
Definition is_name_char (c : ascii) : bool :=
  (is_alnum c || Ascii.eqb c "_" || Ascii.eqb c "-" || Ascii.eqb c "."
   || Ascii.eqb c ":")%bool%char.
Definition is_name_start (c : ascii) : bool :=
  (is_name_char c && negb (Ascii.eqb c "-") && negb (Ascii.eqb c ".")
   && negb (Nat.leb 48 (nat_of_ascii c) && Nat.leb (nat_of_ascii c) 57))%bool%char.

Definition hexval (c : ascii) : option N :=
  let n := N_of_ascii c in
  if (N.leb 48 n && N.leb n 57)%bool then Some (n - 48)%N
  else if (N.leb 65 n && N.leb n 70)%bool then Some (n - 55)%N
  else if (N.leb 97 n && N.leb n 102)%bool then Some (n - 87)%N
  else None.

Fixpoint num_of (base : N) (acc : N) (s : string) : option N :=
  match s with
  | EmptyString => Some acc
  | String c r =>
      match hexval c with
      | Some d => if N.ltb d base then num_of base (acc * base + d)%N r else None
      | None => None
      end
  end.

(** Characters that XML 1.0 does not admit. *)
Definition illegal_char (c : ascii) : bool :=
  let n := nat_of_ascii c in
  (Nat.ltb n 32 && negb (is_ws c))%bool.

(** Code points a numeric reference can name: those of characters XML 1.0
    admits. *)
Definition xml_char (n : N) : bool :=
  ((N.leb 32 n && N.ltb n 55296) || (N.leb 57344 n && N.ltb n 65534)
   || (N.leb 65536 n && N.ltb n 1114112)
   || N.eqb n 9 || N.eqb n 10 || N.eqb n 13)%bool.

(** A reference (text between '&' and ';'). *)
Definition entity (e : string) : option string :=
  if String.eqb e "lt" then Some "<"
  else if String.eqb e "gt" then Some ">"
  else if String.eqb e "amp" then Some "&"
  else if String.eqb e "quot" then Some """"
  else if String.eqb e "apos" then Some "'"
  else
    let num :=
      match e with
      | String "#" (String "x" r) => if is_empty r then None else num_of 16 0 r
      | String "#" r => if is_empty r then None else num_of 10 0 r
      | _ => None
      end in
    match num with
    | Some n => if xml_char n then Some (utf8 n) else None
    | None => None
    end.

(** Replace references; [ent] is the reference being read. *)
Fixpoint unesc_aux (ent : option string) (s : string) : option string :=
  match s with
  | EmptyString => match ent with None => Some "" | Some _ => None end
  | String c r =>
      match ent with
      | None =>
          if Ascii.eqb c "&" then unesc_aux (Some "") r
          else match unesc_aux None r with
               | Some t => Some (String c t)
               | None => None
               end
      | Some e =>
          if Ascii.eqb c ";" then
            match entity e, unesc_aux None r with
            | Some x, Some t => Some (x +++ t)
            | _, _ => None
            end
          else unesc_aux (Some (e +++ String c "")) r
      end
  end.
Definition unesc (s : string) : option string := unesc_aux None s.

(** Attribute-value normalisation: literal white space becomes a space. *)
Fixpoint attr_norm (s : string) : string :=
  match s with
  | EmptyString => EmptyString
  | String c r => String (if is_ws c then " "%char else c) (attr_norm r)
  end.

Inductive pmode :=
| MContent
| MTagOpen                                   (* after '<' *)
| MStartName (acc : string)
| MAttrs (nm : string) (ats : list (string * string))
| MAttrName (nm : string) (ats : list (string * string)) (acc : string)
| MAttrEq (nm : string) (ats : list (string * string)) (an : string)
| MAttrQuote (nm : string) (ats : list (string * string)) (an : string)
| MAttrVal (nm : string) (ats : list (string * string)) (an : string) (q : ascii) (acc : string)
| MAfterVal (nm : string) (ats : list (string * string))
| MEmptyClose (nm : string) (ats : list (string * string))
| MEndName (acc : string)
| MEndWs (acc : string)
| MBang (acc : string)
| MComment (tail : string)
| MCData (acc : string)
| MPI (acc : string)
| MDoctype
| MFail (msg : string).

Record pst := Pst {
  p_mode : pmode;
  p_out : list event;          (* events delivered so far *)
  p_stack : list string;       (* qualified names of the open elements *)
  p_names : list name;         (* the same, resolved *)
  p_nss : nsstack;
  p_raw : string;              (* text since the last markup, references unresolved *)
  p_buf : string;              (* coalesced character data *)
  p_nonws : bool;              (* it contains something else than white space *)
  p_seen : bool }.             (* a root element was seen *)

Definition p0 : pst := Pst MContent [EStartDoc] [] [] [] "" "" false false.

Definition set_mode (st : pst) (m : pmode) : pst :=
  Pst m (p_out st) (p_stack st) (p_names st) (p_nss st) (p_raw st) (p_buf st)
      (p_nonws st) (p_seen st).
Definition pfail (st : pst) (msg : string) : pst := set_mode st (MFail msg).

Definition str_nonws (s : string) : bool := negb (all_chars is_ws s).

(** End of a run of raw text: resolve references, append to the buffer. *)
Definition end_raw (st : pst) (m : pmode) : pst :=
  match unesc (p_raw st) with
  | None => pfail st "Unexpected entity"
  | Some t =>
      Pst m (p_out st) (p_stack st) (p_names st) (p_nss st) ""
          (p_buf st +++ t) (p_nonws st || str_nonws t) (p_seen st)
  end.

(** Deliver the buffered character data before other markup.  White-space-only
    text is dropped ([trim_whitespace]), other text is trimmed. *)
Definition flush (st : pst) (m : pmode) : pst :=
  if p_nonws st then
    match p_stack st with
    | [] => pfail st "Unexpected characters outside the root element"
    | _ => Pst m (p_out st ++ [EChars (trim (p_buf st))])%list (p_stack st) (p_names st)
               (p_nss st) (p_raw st) "" false (p_seen st)
    end
  else Pst m (p_out st) (p_stack st) (p_names st) (p_nss st) (p_raw st) "" false (p_seen st).

(** xmlns declarations among the raw attributes. *)
Definition ns_decl (a : string * string) : option (string * string) :=
  let n := qname (fst a) in
  match n_prefix n with
  | Some "xmlns" => Some (n_local n, snd a)
  | Some _ => None
  | None => if String.eqb (n_local n) "xmlns" then Some ("", snd a) else None
  end.

Fixpoint decls_of (l : list (string * string)) : nsmap :=
  match l with
  | [] => []
  | a :: r => match ns_decl a with
              | Some (p, u) => ns_put (decls_of r) p u
              | None => decls_of r
              end
  end.

Definition xml_uri := "http://www.w3.org/XML/1998/namespace".

Definition lookup_prefix (st : nsstack) (p : string) : option string :=
  if String.eqb p "xml" then Some xml_uri else nss_get st p.

(** Element names use the default namespace, attribute names do not. *)
Definition resolve_elem (st : nsstack) (q : string) : option name :=
  let n := qname q in
  match n_prefix n with
  | Some p =>
      match lookup_prefix st p with
      | Some u => Some (Name (n_local n) (Some u) (Some p))
      | None => None
      end
  | None =>
      match nss_get st "" with
      | Some u => Some (Name (n_local n) (if String.eqb u "" then None else Some u) None)
      | None => Some (Name (n_local n) None None)
      end
  end.

Definition resolve_attr_name (st : nsstack) (q : string) : option name :=
  let n := qname q in
  match n_prefix n with
  | Some p =>
      match lookup_prefix st p with
      | Some u => Some (Name (n_local n) (Some u) (Some p))
      | None => None
      end
  | None => Some n
  end.

Fixpoint resolve_attrs (st : nsstack) (l : list (string * string)) : option (list attr) :=
  match l with
  | [] => Some []
  | a :: r =>
      match ns_decl a with
      | Some _ => resolve_attrs st r
      | None =>
          match resolve_attr_name st (fst a), resolve_attrs st r with
          | Some n, Some r' => Some (Attr n (snd a) :: r')
          | _, _ => None
          end
      end
  end.

Fixpoint dup_names (l : list (string * string)) : bool :=
  match l with
  | [] => false
  | a :: r => existsb (fun b => String.eqb (fst a) (fst b)) r || dup_names r
  end.

(** [OwnedName::from_str]: at most one colon, with something on both sides. *)
Definition bad_qname (q : string) : bool :=
  match split_colon q with
  | None => false
  | Some (p, l) => (is_empty p || is_empty l || match split_colon l with Some _ => true | None => false end)%bool
  end.

(** Declarations that xml-rs refuses. *)
Definition xmlns_uri := "http://www.w3.org/2000/xmlns/".
Definition bad_decl (a : string * string) : bool :=
  match ns_decl a with
  | None => false
  | Some (p, u) =>
      if String.eqb p "" then existsb (String.eqb u) ["xml"; "xmlns"; xml_uri; xmlns_uri]
      else (String.eqb p "xmlns" || (String.eqb p "xml" && negb (String.eqb u xml_uri)) || String.eqb u "")%bool
  end.

(** Duplicates are looked for among the attributes that are no declarations;
    of two declarations of a prefix the first one counts. *)
Definition plain_attrs (l : list (string * string)) : list (string * string) :=
  filter (fun a => match ns_decl a with Some _ => false | None => true end) l.
Definition bad_tag (q : string) (ats : list (string * string)) : bool :=
  (dup_names (plain_attrs ats) || bad_qname q || existsb (fun a => bad_qname (fst a) || bad_decl a) ats)%bool.
Definition tag_fault (ats : list (string * string)) : string :=
  if dup_names (plain_attrs ats) then "Attribute is redefined" else "Qualified name or namespace declaration is invalid".

(** A complete start tag ([empty]: "<a/>"). *)
Definition start_tag (st : pst) (q : string) (ats : list (string * string)) (empty : bool) : pst :=
  if bad_tag q ats then pfail st (tag_fault ats)
  else
    let nss := decls_of ats :: p_nss st in
    match resolve_elem nss q, resolve_attrs nss ats with
    | Some n, Some al =>
        let ev := EStart n al (squash nss) in
        if empty then
          Pst MContent (p_out st ++ [ev; EEnd n])%list (p_stack st) (p_names st) (p_nss st)
              "" "" false true
        else
          Pst MContent (p_out st ++ [ev])%list (q :: p_stack st) (n :: p_names st) nss
              "" "" false true
    | _, _ => pfail st "prefix is unbound"
    end.

(** A complete end tag. *)
Definition end_tag (st : pst) (q : string) : pst :=
  match p_stack st, p_names st, p_nss st with
  | s :: ss, n :: ns, _ :: sc =>
      if String.eqb s q then
        Pst MContent (p_out st ++ [EEnd n])%list ss ns sc "" "" false (p_seen st)
      else pfail st ("Unexpected closing tag: " +++ q +++ " != " +++ s)
  | _, _, _ => pfail st "Unexpected closing tag"
  end.

(** Processing instructions called xml: [Some true] for an XML declaration,
    which may stand only in front of the first element, [Some false] for others,
    which xml-rs refuses.  Simplified: a second declaration in front of the
    first element is accepted, and the names of other processing instructions
    are not checked. *)
Definition pi_kind (a : string) : option bool :=
  match a with
  | String x (String m (String l (String c _))) =>
      if ((Ascii.eqb x "x" || Ascii.eqb x "X") && (Ascii.eqb m "m" || Ascii.eqb m "M") &&
          (Ascii.eqb l "l" || Ascii.eqb l "L") && (is_ws c || Ascii.eqb c "?"))%bool%char
      then Some (Ascii.eqb x "x" && Ascii.eqb m "m" && Ascii.eqb l "l" && is_ws c)%bool%char
      else None
  | _ => None
  end.

Definition add1 (s : string) (c : ascii) : string := s +++ String c "".

Definition pstep (st : pst) (c : ascii) : pst :=
  if illegal_char c then
    match p_mode st with MFail _ => st | _ => pfail st "Unexpected character" end
  else
  match p_mode st with
  | MFail _ => st
  | MContent =>
      if Ascii.eqb c "<" then end_raw st MTagOpen
      else Pst MContent (p_out st) (p_stack st) (p_names st) (p_nss st)
               (add1 (p_raw st) c) (p_buf st) (p_nonws st) (p_seen st)
  | MTagOpen =>
      if Ascii.eqb c "/" then flush st (MEndName "")
      else if Ascii.eqb c "!" then set_mode st (MBang "")
      else if Ascii.eqb c "?" then flush st (MPI "")
      else if is_name_start c then flush st (MStartName (String c ""))
      else pfail st "Unexpected token inside opening tag"
  | MStartName acc =>
      if is_name_char c then set_mode st (MStartName (add1 acc c))
      else if is_ws c then set_mode st (MAttrs acc [])
      else if Ascii.eqb c ">" then start_tag st acc [] false
      else if Ascii.eqb c "/" then set_mode st (MEmptyClose acc [])
      else pfail st "Unexpected token inside qualified name"
  | MAttrs nm ats =>
      if is_ws c then st
      else if Ascii.eqb c ">" then start_tag st nm ats false
      else if Ascii.eqb c "/" then set_mode st (MEmptyClose nm ats)
      else if is_name_start c then set_mode st (MAttrName nm ats (String c ""))
      else pfail st "Unexpected token inside opening tag"
  | MAttrName nm ats acc =>
      if is_name_char c then set_mode st (MAttrName nm ats (add1 acc c))
      else if is_ws c then set_mode st (MAttrEq nm ats acc)
      else if Ascii.eqb c "=" then set_mode st (MAttrQuote nm ats acc)
      else pfail st "Unexpected token inside qualified name"
  | MAttrEq nm ats an =>
      if is_ws c then st
      else if Ascii.eqb c "=" then set_mode st (MAttrQuote nm ats an)
      else pfail st "Unexpected token after attribute name"
  | MAttrQuote nm ats an =>
      if is_ws c then st
      else if (Ascii.eqb c """" || Ascii.eqb c "'")%bool then set_mode st (MAttrVal nm ats an c "")
      else pfail st "Unexpected token inside attribute value"
  | MAttrVal nm ats an q acc =>
      if Ascii.eqb c q then
        match unesc (attr_norm acc) with
        | Some v => set_mode st (MAfterVal nm (ats ++ [(an, v)])%list)
        | None => pfail st "Unexpected entity"
        end
      else if Ascii.eqb c "<" then pfail st "Unexpected token inside attribute value: <"
      else set_mode st (MAttrVal nm ats an q (add1 acc c))
  | MAfterVal nm ats =>
      if is_ws c then set_mode st (MAttrs nm ats)
      else if Ascii.eqb c ">" then start_tag st nm ats false
      else if Ascii.eqb c "/" then set_mode st (MEmptyClose nm ats)
      else pfail st "Unexpected token inside opening tag"
  | MEmptyClose nm ats =>
      if Ascii.eqb c ">" then start_tag st nm ats true
      else pfail st "Unexpected token inside opening tag"
  | MEndName acc =>
      if is_name_char c then set_mode st (MEndName (add1 acc c))
      else if is_ws c then set_mode st (MEndWs acc)
      else if Ascii.eqb c ">" then end_tag st acc
      else pfail st "Unexpected token inside closing tag"
  | MEndWs acc =>
      if is_ws c then st
      else if Ascii.eqb c ">" then end_tag st acc
      else pfail st "Unexpected token inside closing tag"
  | MBang acc =>
      let a := add1 acc c in
      if String.eqb a "--" then set_mode st (MComment "")
      else if String.eqb a "[CDATA[" then
        match p_stack st with
        | [] => pfail st "Unexpected CDATA outside the root element"
        | _ => set_mode st (MCData "")
        end
      else if String.eqb a "DOCTYPE" then
        if p_seen st then pfail st "Unexpected token: <!DOCTYPE" else set_mode st MDoctype
      else if (String.prefix a "--" || String.prefix a "[CDATA[" || String.prefix a "DOCTYPE")%bool then set_mode st (MBang a)
      else pfail st "Unexpected token: <!"
  | MComment tl =>
      (* comments are ignored (ignore_comments); tl = last two characters *)
      if String.eqb tl "--" then
        if Ascii.eqb c ">" then set_mode st MContent else pfail st "Unexpected token '--' inside a comment"
      else
        let t := add1 tl c in
        set_mode st (MComment
          (match t with String a (String b (String d EmptyString)) => String b (String d "") | _ => t end))
  | MCData acc =>
      let a := add1 acc c in
      let n := String.length a in
      if (Nat.leb 3 n && String.eqb (substring (n - 3) 3 a) "]]>")%bool then
        let d := substring 0 (n - 3) a in
        Pst MContent (p_out st) (p_stack st) (p_names st) (p_nss st) ""
            (p_buf st +++ d) (p_nonws st || str_nonws d) (p_seen st)
      else set_mode st (MCData a)
  | MPI acc =>
      let a := add1 acc c in
      let n := String.length a in
      if (Nat.leb 2 n && String.eqb (substring (n - 2) 2 a) "?>")%bool then
        match pi_kind a with
        | Some d =>
            if (d && negb (p_seen st))%bool then set_mode st MContent
            else pfail st "Invalid processing instruction: <?xml"
        | None => Pst MContent (p_out st ++ [EPI a])%list (p_stack st) (p_names st) (p_nss st)
                 (p_raw st) (p_buf st) (p_nonws st) (p_seen st)
        end
      else set_mode st (MPI a)
  | MDoctype => if Ascii.eqb c ">" then set_mode st MContent else st
  end%char.

Fixpoint prun (st : pst) (s : string) : pst :=
  match s with
  | EmptyString => st
  | String c r => prun (pstep st c) r
  end.

(** End of input. *)
Definition pfinish (st : pst) : stream :=
  match p_mode st with
  | MFail m => Stream (p_out st) (FErr m)
  | MContent =>
      match end_raw st MContent with
      | Pst MContent out stack _ _ _ _ nonws seen =>
          match stack with
          | _ :: _ => Stream out (FErr "Unexpected end of stream: still inside the root element")
          | [] =>
              if nonws then Stream out (FErr "Unexpected characters outside the root element")
              else if seen then Stream out FEnd
              else Stream out (FErr "Unexpected end of stream: no root element found")
          end
      | st' => Stream (p_out st') (FErr "Unexpected entity")
      end
  | _ => Stream (p_out st) (FErr "Unexpected end of stream")
  end.

(** The event stream of an XML text. *)
Definition parse_text (s : string) : stream := pfinish (prun p0 s).
