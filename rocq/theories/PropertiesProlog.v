(** * C79: declarations behind the root element.

    Vocabulary: SpecXml.v ([declaration], [denotes]), SpecTurn.v
    ([several_documents]: one or more root elements, which xml-rs accepts). *)
From Verif Require Import Str Num Xml XmlText Reader Schema De Ser Conform SpecReader SpecTree SpecXml SpecTurn
  DeclProofs TextProofs PropertiesXml PropertiesTurn PropertiesLog.
Open Scope list_scope.

(** The elements in front are delivered, then comes an error; what follows
    ([r]) has no effect. *)
Theorem C79_declaration :
  forall ts s ns d r, several_documents ts s -> Forall2 (denotes no_scope) ts ns -> ts <> [] -> declaration d -> d <> "" ->
  strip (s_evs (parse_text (s +++ d +++ r))) = flat_map flat ns /\
  s_fin (parse_text (s +++ d +++ r)) = FErr "Invalid processing instruction: <?xml".
Proof. exact declaration_behind. Qed.
Print Assumptions C79_declaration.

Theorem C79_doctype :
  forall ts s ns r, several_documents ts s -> Forall2 (denotes no_scope) ts ns -> ts <> [] ->
  strip (s_evs (parse_text (s +++ "<!DOCTYPE" +++ r))) = flat_map flat ns /\
  s_fin (parse_text (s +++ "<!DOCTYPE" +++ r)) = FErr "Unexpected token: <!DOCTYPE".
Proof. exact doctype_behind. Qed.
Print Assumptions C79_doctype.

(** Markup that begins with "<!" and is no comment, no CDATA section and no
    document type declaration. *)
Theorem C79_markup :
  forall ts s ns c r, several_documents ts s -> Forall2 (denotes no_scope) ts ns -> ts <> [] ->
  c <> "-"%char -> c <> "["%char -> c <> "D"%char ->
  strip (s_evs (parse_text (s +++ "<!" +++ String c r))) = flat_map flat ns /\
  exists m, s_fin (parse_text (s +++ "<!" +++ String c r)) = FErr m.
Proof. exact markup_behind. Qed.
Print Assumptions C79_markup.

(** The two elements of C77_case_text, which are [several_documents] there. *)
Example C79_case :
  several_documents [t77 "0"; t77 "1"] (p77 "0" +++ "<!-- n -->" +++ p77 "1") /\
  Forall2 (denotes no_scope) [t77 "0"; t77 "1"] (map (fun s => Elem (nm77 "p") [] [] [Elem (nm77 "x") [] [] [Txt s]]) ["0"; "1"]) /\
  declaration decl /\
  parse_text ((p77 "0" +++ "<!-- n -->" +++ p77 "1") +++ "<!DOCTYPE p><p/>") =
    Stream (EStartDoc :: elem77 "p" (leaf77 "x" "0") ++ elem77 "p" (leaf77 "x" "1")) (FErr "Unexpected token: <!DOCTYPE") /\
  (exists evs m, parse_text (p77 "0" +++ "<!ENTITY e 'x'>" +++ p77 "1") = Stream evs (FErr m)) /\
  (exists evs, parse_text ("<!DOCTYPE p>" +++ p77 "0") = Stream evs FEnd) /\
  (exists evs, parse_text (decl +++ p77 "0" +++ "<?xml-p?>") = Stream evs FEnd).
Proof.
  split; [exact (proj1 (proj2 C77_case_text))|]. split; [repeat constructor; apply p77_denotes|].
  split; [exact (proj1 C78_case_stops)|]. split; [vm_compute; reflexivity|].
  split; [do 2 eexists; vm_compute; reflexivity|]. split; eexists; vm_compute; reflexivity.
Qed.
