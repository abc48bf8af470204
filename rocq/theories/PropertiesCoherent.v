(** * C76: what the parser tells about elements is coherent.

    Vocabulary: SpecCoherent.v. *)
From Verif Require Import Str Num Xml XmlText Reader Schema De Conform SpecXml SpecCoherent CoherentProofs.
Open Scope list_scope.

(** For every text, accepted or not: tags match, texts stand in elements,
    every name is resolved by the bindings delivered with its tag, no tag has
    an attribute twice, no binding is lost inside; and all elements of an
    accepted text are closed. *)
Theorem C76_coherent :
  forall s, exists st, coherent [] (s_evs (parse_text s)) st /\ (s_fin (parse_text s) = FEnd -> st = []).
Proof. exact parser_coherent. Qed.
Print Assumptions C76_coherent.

(** Bindings come and go; "xml" needs none; an empty default namespace is none. *)
Example C76_case :
  s_evs (parse_text "<a xmlns='u' xmlns:p='v'><p:b xmlns:p='w' xmlns='' p:k='1' k='2'><c xml:lang='en'/></p:b><p:b/></a>") =
  [EStartDoc;
   EStart (Name "a" (Some "u") None) [] [("", "u"); ("p", "v")];
   EStart (Name "b" (Some "w") (Some "p")) [Attr (Name "k" (Some "w") (Some "p")) "1"; Attr (Name "k" None None) "2"] [("", ""); ("p", "w")];
   EStart (Name "c" None None) [Attr (Name "lang" (Some xml_namespace) (Some "xml")) "en"] [("", ""); ("p", "w")];
   EEnd (Name "c" None None); EEnd (Name "b" (Some "w") (Some "p"));
   EStart (Name "b" (Some "v") (Some "p")) [] [("", "u"); ("p", "v")]; EEnd (Name "b" (Some "v") (Some "p"));
   EEnd (Name "a" (Some "u") None)] /\
  s_fin (parse_text "<a xmlns='u' xmlns:p='v'><p:b xmlns:p='w' xmlns='' p:k='1' k='2'><c xml:lang='en'/></p:b><p:b/></a>") = FEnd.
Proof. split; vm_compute; reflexivity. Qed.
(** What would not be coherent is refused, whatever type is read. *)
Example C76_case_refused :
  map (fun s => s_fin (parse_text s))
    ["<a k='1' k='2'/>"; "<p:a/>"; "<a p:k='1'/>"; "<a><b xmlns:p='u'/><p:c/></a>"; "<a></b>"; "<a/>x"; "<a>"] =
  [FErr "Attribute is redefined"; FErr "prefix is unbound"; FErr "prefix is unbound"; FErr "prefix is unbound";
   FErr "Unexpected closing tag: b != a"; FErr "Unexpected characters outside the root element";
   FErr "Unexpected end of stream: still inside the root element"].
Proof. vm_compute. reflexivity. Qed.
(** Only qualified names are told apart: two prefixes may give one attribute
    two values. *)
Example C76_case_expanded :
  s_fin (parse_text "<a xmlns:p='u' xmlns:q='u' p:k='1' q:k='2'/>") = FEnd.
Proof. vm_compute. reflexivity. Qed.
