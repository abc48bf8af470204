(** * C69: the text and its indentation.

    Vocabulary: SpecEnc.v ([encode]: the trees of a value), SpecPrint.v
    ([page]: the text of trees, by recursion on the trees). *)
From Verif Require Import Str Num Xml XmlText Reader Schema Ser Conform SpecText SpecEnc SpecPrint PrintProofs.
Open Scope list_scope.

(** The text written with a configuration is the text of the trees of the
    value; it is written exactly when there are such trees. *)
Theorem C69_text :
  forall x E c id v s,
  to_string_with_config x E c id v = SOk s <->
  exists ts, encode x E id v (Under None) = Some ts /\ s = page c ts.
Proof. exact text_page. Qed.
Print Assumptions C69_text.

(** Texts of trees, on their own: what the emitter writes for any trees. *)
Theorem C69_trees :
  forall c ts, emit_text (econf_of c) (flat_map wtree ts) = page c ts.
Proof. exact emit_page. Qed.
Print Assumptions C69_trees.

(** Nested elements, mixed content, an empty element, bindings already in
    scope and new ones; with and without indentation and declaration. *)
Definition E69 : env :=
  [struct_ "a" (a_prefix "p" (a_ns [("p", "u")] ya0)) [fldA "b" (a_attr ya0) tstr; fldA "c" (a_prefix "p" ya0) (tuser 1); fld "d" (tuser 2)];
   struct_ "c" (a_ns [("p", "u"); ("q", "w")] ya0) [fld "e" (TVec (BUser 3)); fld "f" tstr];
   struct_ "d" ya0 [fldA "g" (a_text ya0) tstr; fld "h" tstr];
   struct_ "e" ya0 [fldA "i" (a_attr ya0) (TOpt (BSimple SString))]].
Definition V69 : value :=
  VRec [VStr "1""<"; VRec [VVec [VRec [VOpt None]; VRec [VOpt (Some (VStr "x"))]]; VStr "a&b'"]; VRec [VStr "t"; VStr ""]].
Example C69_case :
  to_string_with_config x0 E69 (Config true true (Some "    ")) 0 V69 = SOk (
"<?xml version=""1.0"" encoding=""utf-8""?>
<p:a xmlns:p=""u"" b=""1&quot;&lt;"">
    <p:c xmlns:q=""w"">
        <e />
        <e i=""x"" />
        <f>a&amp;b'</f>
    </p:c>
    <d>t<h></h></d>
</p:a>") /\
  to_string_with_config x0 E69 (Config true false None) 0 V69 = SOk (
"<p:a xmlns:p=""u"" b=""1&quot;&lt;"">
  <p:c xmlns:q=""w"">
    <e />
    <e i=""x"" />
    <f>a&amp;b'</f>
  </p:c>
  <d>t<h></h></d>
</p:a>") /\
  to_string_with_config x0 E69 config0 0 V69 = SOk
"<?xml version=""1.0"" encoding=""utf-8""?><p:a xmlns:p=""u"" b=""1&quot;&lt;""><p:c xmlns:q=""w""><e /><e i=""x"" /><f>a&amp;b'</f></p:c><d>t<h></h></d></p:a>".
Proof. repeat split; vm_compute; reflexivity. Qed.
