(** * Documents according to the grammar of XML (C55, C56). *)
From Verif Require Import Str Num Xml XmlText Reader Schema De Ser Macro SpecTree SpecReader SpecText SpecValue SpecEnc SpecOut SpecXml SpecLine SpecWritten Conform
  IndentProofs TextProofs ReaderProofs PropertiesReader OutCheck GrammarProofs DenoteProofs WrittenProofs.
Open Scope list_scope.

(** C55.  How a document is spelled makes no difference: white space inside
    tags, the quotes around attribute values, character and entity references,
    CDATA sections, comments, processing instructions, the XML declaration, the
    document type declaration, empty element tags.
    Missing for the full claim: what the grammar of SpecXml.v leaves out:
    document type declarations with '>' in a literal, line ends with carriage
    returns and byte order marks, for which it is false (below), internal
    subsets, and encodings other than UTF-8. *)
Theorem C55_spelling_partial :
  forall x E fuel id t s s', xml_document t s -> xml_document t s' ->
  from_str x E fuel id s = from_str x E fuel id s'.
Proof. exact spelling. Qed.
Print Assumptions C55_spelling_partial.

(** Every document of the grammar whose names can be resolved is accepted, and
    its events are those of the tree it denotes. *)
Theorem C55_tree_partial :
  forall t s n, xml_document t s -> denotes no_scope t n ->
  s_fin (parse_text s) = FEnd /\
  filter (fun e => match e with EStartDoc | EPI _ | EComment _ => false | _ => true end) (s_evs (parse_text s)) = flat n.
Proof. exact document_tree. Qed.
Print Assumptions C55_tree_partial.

(** What a type reads from a tree, it reads from every document that denotes
    the tree. *)
Theorem C55_reads_partial :
  forall x E id t s n o, xml_document t s -> denotes no_scope t n -> Reads x E id 0 n o ->
  exists N, forall fuel, N <= fuel -> from_str x E fuel id s = o.
Proof. exact document_reads. Qed.
Print Assumptions C55_reads_partial.

(** Two spellings of one document. *)
Lemma not_inside : forall t s, t <> "" -> contains t s = false -> ~ within t s.
Proof. intros t s Ht H (u & v & ->). rewrite (contains_app u t v Ht) in H. discriminate H. Qed.
Ltac each := repeat first [apply Forall_nil | apply Forall_cons].
Ltac legal := first [left; unfold white; tauto | right; apply Nat.leb_le; reflexivity].
Ltac lettered := unfold letter; cbv zeta; first
  [ left; split; apply Nat.leb_le; reflexivity | right; left; split; apply Nat.leb_le; reflexivity ].
Ltac name := split; [lettered|each; left; lettered].
Ltac white_space := unfold blank, every; each; unfold white; tauto.
Ltac some_space := split; [white_space|discriminate].
Ltac plain_text := repeat first [apply sp_none | apply sp_char; [repeat split; [legal|discriminate|discriminate|discriminate]|]].
Ltac plain_value := repeat first [apply sp_none | apply sp_char; [repeat split; try discriminate; [legal|right; split; [intros [E|[E|[E|E]]]; discriminate E|reflexivity]]|]].
Ltac text_only := split; [plain_text|apply not_inside; [discriminate|reflexivity]].

Definition tree55 : xnode :=
  XElem "a" [("xmlns", "u"); ("b", "1")] [XElem "c" [] [XTxt "x<y"]].
Definition plain55 := "<a xmlns=""u"" b=""1""><c>x&lt;y</c></a>".
Definition fancy55 :=
  "<?xml version='1.0'?><!-- n --><!DOCTYPE a PUBLIC '-//x' ""<a.dtd"" ><a xmlns = '&#117;' b=""1"" > <?p d?><c><![CDATA[x<]]>y</c ></a>".

Example C55_plain : xml_document tree55 plain55.
Proof.
  exists "", "", "", plain55, "". repeat split; [left; reflexivity|constructor|left; reflexivity| |constructor].
  refine (el_full "a" [("xmlns", "u"); ("b", "1")] " xmlns=""u"" b=""1""" "" _ "<c>x&lt;y</c>" "" _ _ _ _ _).
  - left. name.
  - refine (as_more _ _ " xmlns=""u""" _ _ (as_more _ _ " b=""1""" "" _ as_none)).
    + refine (attribute_intro " " "xmlns" "" "" """" "u" "u" _ _ _ _ _ _); [some_space|left; name|white_space|white_space|tauto|plain_value].
    + refine (attribute_intro " " "b" "" "" """" "1" "1" _ _ _ _ _ _); [some_space|left; name|white_space|white_space|tauto|plain_value].
  - white_space.
  - refine (co_element "" "" [] (XElem "c" [] [XTxt "x<y"]) "<c>x&lt;y</c>" [] "" _ _ _ _).
    + apply run_end. text_only.
    + apply tn_none. white_space.
    + refine (el_full "c" [] "" "" _ "x&lt;y" "" _ _ _ _ _); [left; name|apply as_none|white_space| |white_space].
      apply (co_end _ "x<y").
      * apply run_end. split; [|apply not_inside; [discriminate|reflexivity]].
        apply sp_char; [repeat split; [legal|discriminate|discriminate|discriminate]|].
        refine (sp_ref in_text "lt" "<" "y" "y" ref_lt _). plain_text.
      * refine (tn_some "" "x<y" "" _ _ _ _); [white_space|white_space|intros [E|[E|[E|E]]]; discriminate E|].
        exists "x<", "y"%char. split; [reflexivity|intros [E|[E|[E|E]]]; discriminate E].
    + apply (co_end _ ""); [apply run_end; text_only|apply tn_none; white_space].
  - white_space.
Qed.
Example C55_fancy : xml_document tree55 fancy55.
Proof.
  exists "<?xml version='1.0'?>", "<!-- n -->", "<!DOCTYPE a PUBLIC '-//x' ""<a.dtd"" >",
    "<a xmlns = '&#117;' b=""1"" > <?p d?><c><![CDATA[x<]]>y</c ></a>", "".
  repeat split; [right|refine (mi_comment "<!-- n -->" "" _ mi_none)|right| |constructor].
  - exists " version='1.0'", "", "", "". repeat split; [|left; reflexivity|left; reflexivity|white_space].
    exists " ", "", "", "'"%char, "1.0". repeat split; [white_space|discriminate|white_space|white_space|tauto|left; reflexivity].
  - exists " n ". repeat split; [unfold every; each; legal|apply not_inside; [discriminate|reflexivity]].
  - exists " ", "a", " PUBLIC '-//x' ""<a.dtd""", " ", "".
    split; [some_space|]. split; [left; name|]. split; [|split; [white_space|split; [constructor|reflexivity]]].
    right. exists " ", "PUBLIC '-//x' ""<a.dtd""". split; [some_space|]. split; [|reflexivity].
    right. exists " ", "'-//x'", " ", """<a.dtd""". split; [some_space|]. split; [|split; [some_space|split; [|reflexivity]]].
    + exists "'"%char, "-//x". split; [tauto|]. split; [|reflexivity]. unfold every. each; (split; [legal|split; discriminate]).
    + exists """"%char, "<a.dtd". split; [tauto|]. split; [|reflexivity]. unfold every. each; (split; [legal|split; discriminate]).
  - refine (el_full "a" [("xmlns", "u"); ("b", "1")] " xmlns = '&#117;' b=""1""" " " _ " <?p d?><c><![CDATA[x<]]>y</c >" "" _ _ _ _ _).
    + left. name.
    + refine (as_more _ _ " xmlns = '&#117;'" _ _ (as_more _ _ " b=""1""" "" _ as_none)).
      * refine (attribute_intro " " "xmlns" " " " " "'" "&#117;" "u" _ _ _ _ _ _); [some_space|left; name|white_space|white_space|tauto|].
        refine (sp_ref _ "#117" "u" "" "" _ (sp_none _)).
        refine (ref_dec "117" 117%N _ _); [|do 3 right; left; split; discriminate].
        refine (num_more 10 "11" 11%N "7" 7 _ _ _); [|left; reflexivity|lia].
        refine (num_more 10 "1" 1%N "1" 1 _ _ _); [|left; reflexivity|lia].
        refine (num_one 10 "1" 1 _ _); [left; reflexivity|lia].
      * refine (attribute_intro " " "b" "" "" """" "1" "1" _ _ _ _ _ _); [some_space|left; name|white_space|white_space|tauto|plain_value].
    + white_space.
    + refine (co_pi " " " " [] "<?p d?>" [XElem "c" [] [XTxt "x<y"]] "<c><![CDATA[x<]]>y</c >" _ _ _ _).
      * apply run_end. text_only.
      * apply tn_none. white_space.
      * exists "p", " d". repeat split; [lettered|each|intros a b c E; discriminate E| |unfold every; each; legal|apply not_inside; [discriminate|reflexivity]].
        right. exists " "%char, "d". split; [reflexivity|unfold white; tauto].
      * refine (co_element "" "" [] (XElem "c" [] [XTxt "x<y"]) "<c><![CDATA[x<]]>y</c >" [] "" _ _ _ _).
        -- apply run_end. text_only.
        -- apply tn_none. white_space.
        -- refine (el_full "c" [] "" "" _ "<![CDATA[x<]]>y" " " _ _ _ _ _); [left; name|apply as_none|white_space| |white_space].
           apply (co_end _ "x<y").
           ++ refine (run_more "" "" "<![CDATA[x<]]>" "x<" "y" "y" _ _ _).
              ** text_only.
              ** left. repeat split; [unfold every; each; legal|unfold every; each; discriminate|apply not_inside; [discriminate|reflexivity]].
              ** apply run_end. text_only.
           ++ refine (tn_some "" "x<y" "" _ _ _ _); [white_space|white_space|intros [E|[E|[E|E]]]; discriminate E|].
              exists "x<", "y"%char. split; [reflexivity|intros [E|[E|[E|E]]]; discriminate E].
        -- apply (co_end _ ""); [apply run_end; text_only|apply tn_none; white_space].
    + white_space.
Qed.
Definition E_c55 : env := [struct_ "a" (a_prefix "d" (a_dns "d" (a_ns [("d", "u")] ya0))) [fldA "b" (a_attr ya0) (tint U8); fldA "c" (a_prefix "d" ya0) tstr]].
Example C55_case :
  from_str x0 E_c55 fuel 0 plain55 = OOk (VRec [VInt 1; VStr "x<y"]) /\
  from_str x0 E_c55 fuel 0 fancy55 = OOk (VRec [VInt 1; VStr "x<y"]).
Proof. split; vm_compute; reflexivity. Qed.
(** In full, but for internal subsets and encodings other than UTF-8. *)
Definition C55_full : Prop :=
  forall x E fuel id t s s', received_document t s -> received_document t s' ->
  from_str x E fuel id s = from_str x E fuel id s'.
(** The parser (xml-rs 0.8.3) takes the first '>' for the end of a document
    type declaration, also inside of a literal. *)
Definition bare55 : xnode := XElem "a" [] [].
Lemma bare55_element : element bare55 "<a/>".
Proof. refine (el_empty "a" [] "" "" _ as_none _); [left; name|white_space]. Qed.
Ltac same_lines := repeat first [apply le_none | apply le_char; [discriminate|]].
Theorem C55_refuted : ~ C55_full.
Proof.
  intros H.
  assert (H1 : any_document bare55 "<a/>").
  { exists "", "", "", "<a/>", "". repeat split; [left; reflexivity|constructor|left; reflexivity|exact bare55_element|constructor]. }
  assert (H2 : any_document bare55 "<!DOCTYPE a SYSTEM ""x>y""><a/>").
  { exists "", "", "<!DOCTYPE a SYSTEM ""x>y"">", "<a/>", "".
    repeat split; [left; reflexivity|constructor|right|exact bare55_element|constructor].
    exists " ", "a", " SYSTEM ""x>y""", "", "".
    split; [some_space|]. split; [left; name|]. split; [|split; [white_space|split; [constructor|reflexivity]]].
    right. exists " ", "SYSTEM ""x>y""". split; [some_space|]. split; [|reflexivity].
    left. exists " ", """x>y""". split; [some_space|]. split; [|reflexivity].
    exists """"%char, "x>y". split; [tauto|]. split; [|reflexivity]. unfold every. each; (split; [legal|discriminate]). }
  assert (L : forall t s, any_document t s -> line_ends s s -> received_document t s).
  { intros t s Hd Hl. exists s, s. tauto. }
  specialize (H x0 [struct_ "a" ya0 []] 9 0 _ _ _ (L _ _ H1 ltac:(same_lines)) (L _ _ H2 ltac:(same_lines))).
  vm_compute in H. discriminate H.
Qed.
Print Assumptions C55_refuted.

(** Nor does it translate line ends: a carriage return in a text stays. *)
Definition line55 (e : string) : string := "<a>x" +++ e +++ "y</a>".
Theorem C55_line_refuted :
  ~ forall x E fuel id t s s', line_ends s s' -> xml_document t s' ->
    from_str x E fuel id s = from_str x E fuel id s'.
Proof.
  intros H.
  assert (H1 : line_ends (line55 (String "013" (String "010" ""))) (line55 (String "010" ""))).
  { unfold line55. repeat first [apply le_none | apply le_both | apply le_char; [discriminate|]]. }
  assert (H2 : xml_document (XElem "a" [] [XTxt ("x" +++ String "010" "y")]) (line55 (String "010" ""))).
  { exists "", "", "", (line55 (String "010" "")), "".
    repeat split; [left; reflexivity|constructor|left; reflexivity| |constructor].
    refine (el_full "a" [] "" "" _ ("x" +++ String "010" "y") "" _ _ _ _ _); [left; name|apply as_none|white_space| |white_space].
    apply (co_end _ ("x" +++ String "010" "y")).
    - apply run_end. text_only.
    - refine (tn_some "" ("x" +++ String "010" "y") "" _ _ _ _); [white_space|white_space|intros [E|[E|[E|E]]]; discriminate E|].
      exists ("x" +++ String "010" ""), "y"%char. split; [reflexivity|intros [E|[E|[E|E]]]; discriminate E]. }
  specialize (H x0 [struct_ "a" ya0 [fldA "t" (a_text ya0) tstr]] fuel 0 _ _ _ H1 H2). vm_compute in H. discriminate H.
Qed.
Print Assumptions C55_line_refuted.
Example C55_line_case : forall e, e = String "010" "" \/ e = String "013" (String "010" "") ->
  from_str x0 [struct_ "a" ya0 [fldA "t" (a_text ya0) tstr]] fuel 0 (line55 e) = OOk (VRec [VStr ("x" +++ e +++ "y")]).
Proof. intros e [->| ->]; vm_compute; reflexivity. Qed.

(** And it takes a byte order mark for a text in front of the root element. *)
Theorem C55_mark_refuted :
  ~ forall x E fuel id t s, xml_document t s ->
    from_str x E fuel id (order_mark +++ s) = from_str x E fuel id s.
Proof.
  intros H.
  assert (H1 : xml_document bare55 "<a/>").
  { exists "", "", "", "<a/>", "". repeat split; [left; reflexivity|constructor|left; reflexivity|exact bare55_element|constructor]. }
  specialize (H x0 [struct_ "a" ya0 []] 9 0 _ _ H1). vm_compute in H. discriminate H.
Qed.
Print Assumptions C55_mark_refuted.
Example C55_mark_case :
  from_str x0 [struct_ "a" ya0 []] 9 0 "<a/>" = OOk (VRec []) /\
  exists m, from_str x0 [struct_ "a" ya0 []] 9 0 (order_mark +++ "<a/>") = OErr m.
Proof. split; [vm_compute; reflexivity|]. eexists. vm_compute. reflexivity. Qed.

Example C55_denotes : denotes no_scope tree55
  (Elem (Name "a" (Some "u") None) [Attr (Name "b" None None) "1"] [("", "u")]
     [Elem (Name "c" (Some "u") None) [] [("", "u")] [Txt "x<y"]]).
Proof.
  assert (Hu : opens_scope no_scope [("xmlns", "u"); ("b", "1")] (fun p => if String.eqb p "" then Some "u" else None)).
  { intros p. destruct (String.eqb_spec p "") as [->|Hp].
    - left. exists "xmlns", "u". split; [left; reflexivity|]. split; [left; split; reflexivity|reflexivity].
    - right. split; [|reflexivity]. intros k u [H|[H|[]]]; injection H as <- <-; intros [[E1 E2]|[E1 E2]]; congruence || discriminate E1. }
  assert (Hl : lists [("", "u")] (fun p => if String.eqb p "" then Some "u" else None)).
  { split; [split; [intros q u []|exact I]|]. intros p. cbn [ns_get]. rewrite String.eqb_sym. reflexivity. }
  eapply de_elem with (sc' := fun p => if String.eqb p "" then Some "u" else None).
  - repeat constructor; cbn; intuition discriminate.
  - intros k u p [H|[H|[]]]; injection H as <- <-; intros [[E1 ->]|[E1 Hp]]; try discriminate E1. split; [discriminate|].
    split; [intros Hx; destruct (Hx eq_refl)|]. split; [split; discriminate|]. split; [discriminate|]. intros _. split; discriminate.
  - exact Hu.
  - apply en_default; [name|reflexivity|discriminate].
  - eapply an_declaration; [left; split; reflexivity|]. apply an_plain; [name|discriminate|apply an_end].
  - exact Hl.
  - repeat constructor. eapply de_elem with (sc' := fun p => if String.eqb p "" then Some "u" else None).
    + constructor.
    + intros k u p [].
    + intros p. right. split; [intros k u []|reflexivity].
    + apply en_default; [name|reflexivity|discriminate].
    + apply an_end.
    + exact Hl.
    + repeat constructor.
Qed.

(** C56.  The texts that [to_string] and [to_string_with_config] write are
    documents of the grammar, and their names can be resolved: they denote the
    tree that the value stands for.  Missing from the full statement below:
    improper, unbound or repeated names, types with [flatten] as roots, control
    characters and carriage returns in texts, "]]>" in CDATA sections. *)
Theorem C56_written_partial :
  forall x E c id v s, writable_types E -> own_element E id ->
  (forall l, ser_events x E id v = SOk l -> forall e, In e l -> legal_event e /\ no_return_event e) ->
  (forall i, c_indent_string c = Some i -> indentation i) ->
  to_string_with_config x E c id v = SOk s ->
  exists t w, encode x E id v (Under None) = Some [w] /\ xml_document t s /\ denotes no_scope t (reread [] w).
Proof. exact to_string_written. Qed.
Print Assumptions C56_written_partial.
Definition E_c56 : env :=
  [struct_ "a" (a_prefix "d" (a_ns [("d", "u")] ya0)) [fldA "b" (a_attr ya0) tstr; fldA "c" (a_prefix "d" ya0) tstr; fldA "d" (a_cdata ya0) tstr]].
Definition v_c56 : value := VRec [VStr "<'1'>"; VStr "x&y"; VStr "<z>"].
Ltac evs := intros e He;
  repeat (destruct He as [<-|He]; [cbn; split; [try exact I; try (intros t Ht; repeat destruct Ht as [<-|Ht]; try destruct Ht); try split; reflexivity|try exact I; unfold no_return, every; each; discriminate]|]);
  destruct He.
Example C56_case :
  writable_types E_c56 /\ own_element E_c56 0 /\
  (forall l, ser_events x0 E_c56 0 v_c56 = SOk l -> forall e, In e l -> legal_event e /\ no_return_event e) /\
  to_string_with_config x0 E_c56 (Config true true None) 0 v_c56 = SOk (
"<?xml version=""1.0"" encoding=""utf-8""?>
<d:a xmlns:d=""u"" b=""&lt;&apos;1&apos;&gt;"">
  <d:c>x&amp;y</d:c>
  <d><![CDATA[<z>]]></d>
</d:a>").
Proof.
  split; [apply (writable_typesb_ok _ 9); vm_compute; reflexivity|]. split; [apply own_elementb_ok; reflexivity|]. split; [|vm_compute; reflexivity].
  intros l Hl. vm_compute in Hl. injection Hl as <-. evs.
Qed.
(** Flattened fields, a flattened type and a flattened payload. *)
Definition E_c56f : env :=
  [struct_ "a" ya0 [fldA "i" (a_attr ya0) tstr; fldA "f" (a_flatten ya0) (tuser 1); fldA "g" (a_flatten ya0) (TVec (BUser 3)); fld "k" (tuser 4)];
   struct_ "b" (a_ns [("d", "u")] ya0) [fldA "j" (a_attr (a_prefix "d" ya0)) tstr; fldA "c" (a_prefix "d" ya0) tstr; fldA "e" (a_flatten ya0) (tuser 2)];
   enum_ "e" (a_tag "t" ya0) [vunit "A"; Variant "B" (a_flatten ya0) (VbNew false (tuser 3))] (VVar 0 []);
   struct_ "h" ya0 [fld "x" tstr];
   struct_ "m" (a_flatten ya0) [fld "y" tstr]].
Definition v_c56f : value :=
  VRec [VStr "1"; VRec [VStr "2"; VStr "3"; VVar 1 [VRec [VStr "4"]]]; VVec [VRec [VStr "5"]; VRec [VStr "6"]]; VRec [VStr "7"]].
Example C56_flat_case :
  writable_types E_c56f /\ own_element E_c56f 0 /\
  (forall l, ser_events x0 E_c56f 0 v_c56f = SOk l -> forall e, In e l -> legal_event e /\ no_return_event e) /\
  to_string_with_config x0 E_c56f (Config false false None) 0 v_c56f = SOk
    "<a xmlns:d=""u"" i=""1"" d:j=""2"" t=""B""><d:c>3</d:c><x>4</x><x>5</x><x>6</x><y>7</y></a>".
Proof.
  split; [apply (writable_typesb_ok _ 9); vm_compute; reflexivity|]. split; [apply own_elementb_ok; reflexivity|]. split; [|vm_compute; reflexivity].
  intros l Hl. vm_compute in Hl. injection Hl as <-. evs.
Qed.
(** Control characters are written as they are. *)
Definition C56_full : Prop :=
  forall x E c id v s, to_string_with_config x E c id v = SOk s -> exists t, xml_document t s.
Theorem C56_control_refuted : ~ C56_full.
Proof.
  intros H. destruct (H x0 [struct_ "a" ya0 [fld "b" tstr]] config0 0 (VRec [VStr (String "001" "")])
    ("<?xml version=""1.0"" encoding=""utf-8""?><a><b>" +++ String "001" "</b></a>") ltac:(vm_compute; reflexivity)) as [t Ht].
  apply (document_legal _ _ Ht). vm_compute. reflexivity.
Qed.
Print Assumptions C56_control_refuted.

(** Names: those that are none, those that are not bound, and attributes that
    are written twice.  With the resolved names of the statement: *)
Definition C56_resolved_full : Prop :=
  forall x E c id v s, to_string_with_config x E c id v = SOk s ->
  exists t n, xml_document t s /\ denotes no_scope t n.
Definition unresolved (E : env) (v : value) (s : string) : Prop :=
  to_string_with_config x0 E config0 0 v = SOk s /\ ~ exists t n, xml_document t s /\ denotes no_scope t n.
Lemma unresolved_by : forall E v s, to_string_with_config x0 E config0 0 v = SOk s ->
  s_fin (parse_text s) <> FEnd -> unresolved E v s.
Proof.
  intros E v s Hs Hp. split; [exact Hs|]. intros (t & n & Ht & Hn). apply Hp. exact (proj1 (C55_tree_partial t s n Ht Hn)).
Qed.
Definition head56 := "<?xml version=""1.0"" encoding=""utf-8""?>".
Example C56_names_case :
  unresolved [struct_ "a" ya0 [fldA "b" (a_rename "b c" ya0) tstr]] (VRec [VStr "x"]) (head56 +++ "<a><b c>x</b c></a>") /\
  unresolved [struct_ "a" ya0 [fldA "b" (a_prefix "p" ya0) tstr]] (VRec [VStr "x"]) (head56 +++ "<a><p:b>x</p:b></a>") /\
  unresolved [struct_ "a" ya0 [fldA "b" (a_attr ya0) tstr; fldA "c" (a_attr (a_rename "b" ya0)) tstr]] (VRec [VStr "x"; VStr "y"]) (head56 +++ "<a b=""x"" b=""y"" />").
Proof.
  split; [|split]; apply unresolved_by; vm_compute; first [reflexivity|discriminate].
Qed.
Theorem C56_names_refuted : ~ C56_resolved_full.
Proof.
  intros H. destruct C56_names_case as (_ & [Hs Hn] & _). apply Hn. exact (H _ _ _ _ _ _ Hs).
Qed.
Print Assumptions C56_names_refuted.
