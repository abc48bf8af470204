(** * Conformance of the model with the repo's own tests.

    Each example replays a test of /repo/yaserde/tests with [vm_compute].
    These are tests of the *model*, not proofs of properties. *)
From Verif Require Import Str Num Xml XmlText Reader Schema De Ser.

(** Builders for type definitions. *)
Definition a_attr (a : yattr) := YAttr true (ya_default a) (ya_default_namespace a) (ya_flatten a) (ya_namespaces a) (ya_prefix a) (ya_rename a) (ya_tag a) (ya_skip a) (ya_skip_if a) (ya_text a) (ya_cdata a).
Definition a_default d (a : yattr) := YAttr (ya_attribute a) (Some d) (ya_default_namespace a) (ya_flatten a) (ya_namespaces a) (ya_prefix a) (ya_rename a) (ya_tag a) (ya_skip a) (ya_skip_if a) (ya_text a) (ya_cdata a).
Definition a_dns d (a : yattr) := YAttr (ya_attribute a) (ya_default a) (Some d) (ya_flatten a) (ya_namespaces a) (ya_prefix a) (ya_rename a) (ya_tag a) (ya_skip a) (ya_skip_if a) (ya_text a) (ya_cdata a).
Definition a_flatten (a : yattr) := YAttr (ya_attribute a) (ya_default a) (ya_default_namespace a) true (ya_namespaces a) (ya_prefix a) (ya_rename a) (ya_tag a) (ya_skip a) (ya_skip_if a) (ya_text a) (ya_cdata a).
Definition a_ns n (a : yattr) := YAttr (ya_attribute a) (ya_default a) (ya_default_namespace a) (ya_flatten a) n (ya_prefix a) (ya_rename a) (ya_tag a) (ya_skip a) (ya_skip_if a) (ya_text a) (ya_cdata a).
Definition a_prefix p (a : yattr) := YAttr (ya_attribute a) (ya_default a) (ya_default_namespace a) (ya_flatten a) (ya_namespaces a) (Some p) (ya_rename a) (ya_tag a) (ya_skip a) (ya_skip_if a) (ya_text a) (ya_cdata a).
Definition a_rename r (a : yattr) := YAttr (ya_attribute a) (ya_default a) (ya_default_namespace a) (ya_flatten a) (ya_namespaces a) (ya_prefix a) (Some r) (ya_tag a) (ya_skip a) (ya_skip_if a) (ya_text a) (ya_cdata a).
Definition a_tag t (a : yattr) := YAttr (ya_attribute a) (ya_default a) (ya_default_namespace a) (ya_flatten a) (ya_namespaces a) (ya_prefix a) (ya_rename a) (Some t) (ya_skip a) (ya_skip_if a) (ya_text a) (ya_cdata a).
Definition a_skip (a : yattr) := YAttr (ya_attribute a) (ya_default a) (ya_default_namespace a) (ya_flatten a) (ya_namespaces a) (ya_prefix a) (ya_rename a) (ya_tag a) true (ya_skip_if a) (ya_text a) (ya_cdata a).
Definition a_skip_if g (a : yattr) := YAttr (ya_attribute a) (ya_default a) (ya_default_namespace a) (ya_flatten a) (ya_namespaces a) (ya_prefix a) (ya_rename a) (ya_tag a) (ya_skip a) (Some g) (ya_text a) (ya_cdata a).
Definition a_text (a : yattr) := YAttr (ya_attribute a) (ya_default a) (ya_default_namespace a) (ya_flatten a) (ya_namespaces a) (ya_prefix a) (ya_rename a) (ya_tag a) (ya_skip a) (ya_skip_if a) true (ya_cdata a).
Definition a_cdata (a : yattr) := YAttr (ya_attribute a) (ya_default a) (ya_default_namespace a) (ya_flatten a) (ya_namespaces a) (ya_prefix a) (ya_rename a) (ya_tag a) (ya_skip a) (ya_skip_if a) (ya_text a) true.

Definition tstr := TBase (BSimple SString).
Definition tint i := TBase (BSimple (SInt i)).
Definition tbool := TBase (BSimple SBool).
Definition tuser id := TBase (BUser id).
Definition fld l t := Field l ya0 t.
Definition fldA l a t := Field l a t.
Definition struct_ n a fs := TypeDef n a (DStruct fs).
Definition enum_ n a vs d := TypeDef n a (DEnum vs d).
Definition vunit l := Variant l ya0 VbUnit.
Definition vnew l t := Variant l ya0 (VbNew false t).

(** A dummy instance of the abstract functions. *)
Definition x0 : ext :=
  Ext (fun _ _ => "0") (fun _ _ => Er "float") Z.eqb
      (fun f => if String.eqb f "default_string" then VStr "my_default_value"
                else if String.eqb f "default_number" then VInt 42 else VStr "")
      (fun g self v => if String.eqb g "always" then true
                       else match v with VBool b => negb b | _ => false end)
      (fun _ z => show_Z z) (fun _ s => parse_int I64 s).

Definition decl := xml_decl.
Definition fuel := 60.

(** to_string gives the declaration followed by the text, from_str of the
    text gives the value back (the repo's [serialize_and_validate!] and
    [deserialize_and_validate!]). *)
Definition ser_ok (E : env) (id : nat) (v : value) (t : string) : Prop :=
  to_string x0 E id v = SOk (decl +++ t).
Definition de_ok (E : env) (id : nat) (t : string) (v : value) : Prop :=
  from_str x0 E fuel id t = OOk v.

(** deserializer.rs de_basic *)
Definition book := struct_ "Book" (a_rename "book" ya0) [fld "author" tstr; fld "title" tstr].
Example de_basic1 : de_ok [book] 0 "<book><author>Antoine</author><title>Little prince</title></book>"
  (VRec [VStr "Antoine"; VStr "Little prince"]).
Proof. vm_compute. reflexivity. Qed.
Example de_basic2 : de_ok [book] 0 "<book><title>Little prince</title><author>Antoine</author></book>"
  (VRec [VStr "Antoine"; VStr "Little prince"]).
Proof. vm_compute. reflexivity. Qed.

(** deserializer.rs de_multiple_segments *)
Definition page := struct_ "Page" ya0 [fld "number" (tint I32); fld "text" tstr].
Definition book_page := struct_ "Book" (a_rename "book" ya0)
  [fld "author" tstr; fld "title" tstr; fld "page" (tuser 1)].
Example de_nested : de_ok [book_page; page] 0
  "<book>
     <author>Antoine</author>
     <title>Little prince</title>
     <page>
       <number>40</number>
       <text>The Earth</text>
     </page>
   </book>"
  (VRec [VStr "Antoine"; VStr "Little prince"; VRec [VInt 40; VStr "The Earth"]]).
Proof. vm_compute. reflexivity. Qed.

(** namespace.rs struct_multiple_namespaces *)
Definition nss2 : nsmap := [("ns", "u1"); ("ns2", "u2")].
Definition book_ns := struct_ "Book" (a_rename "book" (a_prefix "ns" (a_ns nss2 ya0)))
  [fldA "author" (a_prefix "ns" ya0) tstr; fldA "title" (a_prefix "ns2" ya0) tstr].
Definition book_ns_txt := "<ns:book xmlns:ns=""u1"" xmlns:ns2=""u2""><ns:author>A</ns:author><ns2:title>T</ns2:title></ns:book>".
Example ns_ser : ser_ok [book_ns] 0 (VRec [VStr "A"; VStr "T"]) book_ns_txt.
Proof. vm_compute. reflexivity. Qed.
Example ns_de : de_ok [book_ns] 0 book_ns_txt (VRec [VStr "A"; VStr "T"]).
Proof. vm_compute. reflexivity. Qed.

(** namespace.rs struct_bad_namespace *)
Example ns_bad : from_str x0 [book_ns] fuel 0
  "<ns:book xmlns:ns=""other""><ns:author>A</ns:author></ns:book>"
  = OErr "bad namespace for book, found other".
Proof. vm_compute. reflexivity. Qed.

(** namespace.rs struct_namespace_nested *)
Definition nsA := struct_ "A" (a_prefix "nsa" (a_ns [("nsa","a")] ya0)) [fldA "alpha" (a_prefix "nsa" ya0) (tint I32)].
Definition nsB := struct_ "B" (a_prefix "nsb" (a_ns [("nsb","b")] ya0)) [fldA "nested" (a_prefix "nsb" ya0) (tuser 0)].
Definition nsB_txt := "<nsb:B xmlns:nsb=""b""><nsb:nested xmlns:nsa=""a""><nsa:alpha>32</nsa:alpha></nsb:nested></nsb:B>".
Example nested_ser : ser_ok [nsA; nsB] 1 (VRec [VRec [VInt 32]]) nsB_txt.
Proof. vm_compute. reflexivity. Qed.
Example nested_de : de_ok [nsA; nsB] 1 nsB_txt (VRec [VRec [VInt 32]]).
Proof. vm_compute. reflexivity. Qed.

(** namespace.rs struct_default_namespace_via_attribute_with_prefix *)
Definition tt_ := struct_ "XmlStruct"
  (a_rename "tt" (a_prefix "TTML" (a_dns "TTML" (a_ns [("TTML","t");("ttm","m")] ya0))))
  [fldA "item" (a_prefix "TTML" ya0) tstr].
Definition tt_txt := "<tt xmlns=""t"" xmlns:ttm=""m""><item>something</item></tt>".
Example dns_ser : ser_ok [tt_] 0 (VRec [VStr "something"]) tt_txt.
Proof. vm_compute. reflexivity. Qed.
Example dns_de : de_ok [tt_] 0 tt_txt (VRec [VStr "something"]).
Proof. vm_compute. reflexivity. Qed.

(** namespace.rs struct_attribute_namespace *)
Definition attr_ns := struct_ "XmlStruct" (a_rename "root" (a_ns [("ns1","d1");("ns2","d2")] ya0))
  [fldA "item_1" (a_prefix "ns1" ya0) tstr; fldA "item_2" (a_attr (a_prefix "ns2" ya0)) tstr].
Definition attr_ns_txt := "<root xmlns:ns1=""d1"" xmlns:ns2=""d2"" ns2:item_2=""something 2""><ns1:item_1>something 1</ns1:item_1></root>".
Example attr_ns_ser : ser_ok [attr_ns] 0 (VRec [VStr "something 1"; VStr "something 2"]) attr_ns_txt.
Proof. vm_compute. reflexivity. Qed.
Example attr_ns_de : de_ok [attr_ns] 0 attr_ns_txt (VRec [VStr "something 1"; VStr "something 2"]).
Proof. vm_compute. reflexivity. Qed.

(** enum.rs unnamed_enum *)
Definition xml_struct := struct_ "XmlStruct" (a_rename "base" ya0) [fld "color" (tuser 1)].
Definition the_enum := enum_ "Enum" ya0
  [vunit "Simple"; vnew "Field" tstr; vnew "Integer" (tint I32); vnew "UserStruct" (tuser 2);
   vnew "OptionString" (TOpt (BSimple SString)); vnew "OptionUserStruct" (TOpt (BUser 2));
   vnew "Strings" (TVec (BSimple SString)); vnew "Ints" (TVec (BSimple (SInt I32)));
   vnew "Structs" (TVec (BUser 2));
   Variant "ToRename" (a_rename "renamed" ya0) (VbNew false (tint U32))] (VVar 0 []).
Definition other_struct := struct_ "OtherStruct" ya0 [fld "fi" (tint I32); fld "se" (tint I32)].
Definition E_enum := [xml_struct; the_enum; other_struct].
Definition enum_case (v : value) (t : string) : Prop :=
  ser_ok E_enum 0 (VRec [v]) t /\ de_ok E_enum 0 t (VRec [v]).
Example enum_unit : enum_case (VVar 0 []) "<base><color>Simple</color></base>".
Proof. split; vm_compute; reflexivity. Qed.
Example enum_string : enum_case (VVar 1 [VStr "some_text"]) "<base><color><Field>some_text</Field></color></base>".
Proof. split; vm_compute; reflexivity. Qed.
Example enum_int : enum_case (VVar 2 [VInt 56]) "<base><color><Integer>56</Integer></color></base>".
Proof. split; vm_compute; reflexivity. Qed.
Example enum_struct : enum_case (VVar 3 [VRec [VInt 24; VInt 42]])
  "<base><color><UserStruct><fi>24</fi><se>42</se></UserStruct></color></base>".
Proof. split; vm_compute; reflexivity. Qed.
Example enum_opt : enum_case (VVar 4 [VOpt (Some (VStr "some_text"))])
  "<base><color><OptionString>some_text</OptionString></color></base>".
Proof. split; vm_compute; reflexivity. Qed.
Example enum_opt_none : ser_ok E_enum 0 (VRec [VVar 4 [VOpt None]]) "<base><color /></base>".
Proof. vm_compute. reflexivity. Qed.
Example enum_opt_struct : enum_case (VVar 5 [VOpt (Some (VRec [VInt 12; VInt 23]))])
  "<base><color><OptionUserStruct><fi>12</fi><se>23</se></OptionUserStruct></color></base>".
Proof. split; vm_compute; reflexivity. Qed.
Example enum_strings : enum_case (VVar 6 [VVec [VStr "abc"; VStr "def"]])
  "<base><color><Strings>abc</Strings><Strings>def</Strings></color></base>".
Proof. split; vm_compute; reflexivity. Qed.
Example enum_ints : enum_case (VVar 7 [VVec [VInt 23; VInt 45]])
  "<base><color><Ints>23</Ints><Ints>45</Ints></color></base>".
Proof. split; vm_compute; reflexivity. Qed.
Example enum_structs : enum_case (VVar 8 [VVec [VRec [VInt 12; VInt 23]; VRec [VInt 34; VInt 45]]])
  "<base><color><Structs><fi>12</fi><se>23</se></Structs><Structs><fi>34</fi><se>45</se></Structs></color></base>".
Proof. split; vm_compute; reflexivity. Qed.
Example enum_renamed : enum_case (VVar 9 [VInt 87]) "<base><color><renamed>87</renamed></color></base>".
Proof. split; vm_compute; reflexivity. Qed.

(** enum.rs attribute_enum2 *)
Definition child1 := struct_ "Child1" (a_rename "child1" ya0) [fldA "val" (a_attr (a_rename "val" ya0)) tstr].
Definition child2 := struct_ "Child2" (a_rename "child2" ya0) [fldA "num" (a_attr ya0) (tint U8)].
Definition base_flat := enum_ "Base" (a_flatten ya0)
  [Variant "C1" (a_flatten (a_rename "child1" ya0)) (VbNew false (tuser 0));
   Variant "C2" (a_flatten (a_rename "child2" ya0)) (VbNew false (tuser 1))]
  (VVar 0 [VRec [VStr "hello world"]]).
Definition E_flat := [child1; child2; base_flat].
Example flat_enum1 : ser_ok E_flat 2 (VVar 0 [VRec [VStr "hello world"]]) "<child1 val=""hello world"" />"
  /\ de_ok E_flat 2 "<child1 val=""hello world"" />" (VVar 0 [VRec [VStr "hello world"]]).
Proof. split; vm_compute; reflexivity. Qed.
Example flat_enum2 : ser_ok E_flat 2 (VVar 1 [VRec [VInt 7]]) "<child2 num=""7"" />"
  /\ de_ok E_flat 2 "<child2 num=""7"" />" (VVar 1 [VRec [VInt 7]]).
Proof. split; vm_compute; reflexivity. Qed.

(** enum.rs attribute_enum *)
Definition pink := enum_ "Color" (a_rename "color" ya0) [Variant "Pink" (a_rename "pink" ya0) VbUnit] (VVar 0 []).
Definition attr_enum := struct_ "XmlStruct" (a_rename "base" ya0) [fldA "color" (a_attr ya0) (tuser 1)].
Example attr_enum_ok : ser_ok [attr_enum; pink] 0 (VRec [VVar 0 []]) "<base color=""pink"" />"
  /\ de_ok [attr_enum; pink] 0 "<base color=""pink"" />" (VRec [VVar 0 []]).
Proof. split; vm_compute; reflexivity. Qed.

(** enum.rs tagged_enum *)
Definition tagged := enum_ "XmlEnum" (a_tag "type" (a_rename "foobar" ya0))
  [Variant "Foo" (a_rename "foo" ya0) VbUnit; Variant "Bar" (a_rename "bar" ya0) VbUnit] (VVar 0 []).
Definition tag_struct := struct_ "XmlStruct" (a_rename "base" ya0) [fldA "foo_bar" (a_rename "foobar" ya0) (tuser 0)].
Example tagged1 : ser_ok [tagged; tag_struct] 0 (VVar 1 []) "<foobar type=""bar"" />"
  /\ de_ok [tagged; tag_struct] 0 "<foobar type=""bar"" />" (VVar 1 []).
Proof. split; vm_compute; reflexivity. Qed.
Example tagged2 : ser_ok [tagged; tag_struct] 1 (VRec [VVar 1 []]) "<base><foobar type=""bar"" /></base>"
  /\ de_ok [tagged; tag_struct] 1 "<base><foobar type=""bar"" /></base>" (VRec [VVar 1 []]).
Proof. split; vm_compute; reflexivity. Qed.

(** flatten.rs basic_flatten *)
Definition E_dt : env :=
  [ struct_ "DateTime" ya0 [fldA "date" (a_flatten ya0) (tuser 1); fld "time" tstr; fldA "kind" (a_flatten ya0) (tuser 4)];
    struct_ "Date" ya0 [fld "year" (tint I32); fld "month" (tint I32); fld "day" (tint I32);
       fldA "extra" (a_flatten ya0) (tuser 2); fldA "optional_extra" (a_flatten ya0) (TOpt (BUser 3))];
    struct_ "Extra" ya0 [fld "week" (tint I32); fld "century" (tint I32)];
    struct_ "OptionalExtra" ya0 [fld "lunar_day" (tint I32)];
    enum_ "DateKind" ya0 [Variant "Holidays" (a_rename "holidays" ya0) (VbNew false (TVec (BSimple SString)));
                          Variant "Working" (a_rename "working" ya0) VbUnit] (VVar 1 []) ].
Definition dt_val := VRec [ VRec [VInt 2020; VInt 1; VInt 1; VRec [VInt 1; VInt 21]; VOpt (Some (VRec [VInt 1]))];
   VStr "10:40:03"; VVar 0 [VVec [VStr "New"; VStr "Novy"; VStr "Polar"]]].
Definition dt_txt := "<DateTime><year>2020</year><month>1</month><day>1</day><week>1</week><century>21</century><lunar_day>1</lunar_day><time>10:40:03</time><holidays>New</holidays><holidays>Novy</holidays><holidays>Polar</holidays></DateTime>".
Example flatten_ser : ser_ok E_dt 0 dt_val dt_txt.
Proof. vm_compute. reflexivity. Qed.
Example flatten_de : de_ok E_dt 0 dt_txt dt_val.
Proof. vm_compute. reflexivity. Qed.

(** flatten.rs root_flatten_struct *)
Definition content := struct_ "Content" (a_flatten ya0) [fld "binary_data" tstr; fld "string_data" tstr].
Example root_flatten : ser_ok [content] 0 (VRec [VStr "binary"; VStr "string"])
   "<binary_data>binary</binary_data><string_data>string</string_data>"
  /\ de_ok [content] 0 "<binary_data>binary</binary_data><string_data>string</string_data>"
       (VRec [VStr "binary"; VStr "string"]).
Proof. split; vm_compute; reflexivity. Qed.

(** flatten.rs flatten_attribute *)
Definition E_html : env :=
  [ struct_ "HtmlText" ya0 [fldA "text_attributes" (a_flatten ya0) (tuser 1); fldA "display" (a_attr ya0) tstr];
    struct_ "TextAttributes" ya0 [fldA "bold" (a_attr ya0) tbool; fldA "font" (a_flatten ya0) (tuser 2)];
    struct_ "FontAttributes" (a_ns [("ns","dom")] ya0) [fldA "size" (a_attr (a_prefix "ns" ya0)) (tint U32)] ].
Definition html_txt := "<HtmlText xmlns:ns=""dom"" display=""block"" bold=""true"" ns:size=""24"" />".
Definition html_val := VRec [VRec [VBool true; VRec [VInt 24]]; VStr "block"].
Example flatten_attr : ser_ok E_html 0 html_val html_txt /\ de_ok E_html 0 html_txt html_val.
Proof. split; vm_compute; reflexivity. Qed.

(** flatten.rs flatten_name_in_unknown_child *)
Definition E_node : env :=
  [ struct_ "Node" ya0 [fldA "base" (a_flatten ya0) (tuser 1); fld "value" (tuser 2)];
    struct_ "Base" ya0 [fldA "id" (a_attr ya0) tstr];
    enum_ "Value" ya0 [vnew "Foo" (tuser 3)] (VVar 0 [VRec []]);
    struct_ "FooStruct" ya0 [] ].
Example unknown_child :
  ser_ok E_node 0 (VRec [VRec [VStr "Foo"]; VVar 0 [VRec []]]) "<Node id=""Foo""><value><Foo /></value></Node>"
  /\ de_ok E_node 0 "<Node id=""Foo""><value><SomethingThatDoesntExist><value></value></SomethingThatDoesntExist></value></Node>"
      (VRec [VRec [VStr "Foo"]; VVar 0 [VRec []]]).
Proof. split; vm_compute; reflexivity. Qed.

(** errors.rs *)
Definition errbook := struct_ "Book" (a_rename "book" ya0) [fld "author" tstr; fld "title" tstr].
Example required : from_str x0 [errbook] fuel 0 "<book><author>A</author></book>"
  = OErr "title is a required field of Book".
Proof. vm_compute. reflexivity. Qed.

(** cdata.rs *)
Definition cdata_t := struct_ "TestTag" ya0 [fldA "content" (a_cdata ya0) tstr].
Example cdata_ok : ser_ok [cdata_t] 0 (VRec [VStr "<p>hi</p>"]) "<TestTag><content><![CDATA[<p>hi</p>]]></content></TestTag>"
  /\ de_ok [cdata_t] 0 "<TestTag><content><![CDATA[<p>hi</p>]]></content></TestTag>" (VRec [VStr "<p>hi</p>"]).
Proof. split; vm_compute; reflexivity. Qed.

(** default.rs default_field_string *)
Definition dflt := struct_ "XmlStruct" (a_rename "base" ya0) [fldA "background" (a_default "default_string" ya0) tstr].
Example default_ok : ser_ok [dflt] 0 (VRec [VStr "my_default_value"]) "<base />"
  /\ de_ok [dflt] 0 "<base />" (VRec [VStr "my_default_value"]).
Proof. split; vm_compute; reflexivity. Qed.

(** skip.rs skip_serializing_for_attributes? no: skip.rs basic_skipping_xml_attributes *)
Definition skip_t := struct_ "XmlStruct" (a_rename "base" ya0)
  [fldA "first_item" (a_skip ya0) tbool; fldA "second_item" (a_skip_if "is_false" ya0) tbool].
Example skip_ok : ser_ok [skip_t] 0 (VRec [VBool true; VBool false]) "<base />".
Proof. vm_compute. reflexivity. Qed.

(** svd.rs / lib.rs: indentation *)
Example indent_ok : to_string_with_config x0 E_enum (Config true true None) 0
   (VRec [VVar 2 [VInt 56]]) = SOk (decl +++ "
<base>
  <color>
    <Integer>56</Integer>
  </color>
</base>").
Proof. vm_compute. reflexivity. Qed.
