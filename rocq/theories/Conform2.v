(** * The rest of the repo's tests, replayed on the model.

    As Conform.v: tests of the *model* against the results that the tests in
    /repo/yaserde/tests and /repo/examples/src expect, with the documents of
    those tests.  Not replayed: the tests with hand-written implementations of
    the two traits (de_attributes_custom_deserializer, de_custom, ser_custom)
    and the default visitor.  examples/src/boscop.rs is in Conform3.v. *)
From Verif Require Import Str Num Xml XmlText Reader Schema De Ser Conform.

(** The text a test compares with: every line is trimmed and lines are
    joined (yaserde/src/lib.rs:326-337). *)
Fixpoint joined (line s : string) : string :=
  match s with
  | EmptyString => trim line
  | String c r =>
      if Ascii.eqb c (Ascii.ascii_of_nat 10) then trim line +++ joined "" r
      else joined (line +++ String c "") r
  end.

(** Floats as codes, defaults and predicates of the tests. *)
Definition floats : list (string * Z) :=
  [("-12.5", 1); ("32", 2); ("64", 3); ("60.75", 4); ("15", 5); ("0", 6); ("33", 7)]%Z.
Definition x1 : ext :=
  Ext (fun _ z => match find (fun p => Z.eqb (snd p) z) floats with Some p => fst p | None => "?" end)
      (fun _ s => match find (fun p => String.eqb (fst p) s) floats with
                  | Some p => Ok (snd p) | None => Er "invalid float literal" end)
      Z.eqb
      (fun f => if String.eqb f "default_string" then VStr "my_default_value"
                else if String.eqb f "default_string_function" then VStr "mask_default"
                else if String.eqb f "default_boolean" then VBool true
                else if String.eqb f "default_number" then VInt 6
                else if String.eqb f "default_i32" then VInt 0
                else if String.eqb f "default_play2" then VRec [VInt 0; VInt 0]
                else VRec [VRec [VInt 0; VInt 0]])
      (fun g _ v => if String.eqb g "check_string_function" then
                      match v with VStr s => String.eqb s "something" | _ => false end
                    else if String.eqb g "check_option_string_function" then
                      match v with VOpt (Some (VStr s)) => String.eqb s "something" | _ => false end
                    else if String.eqb g "check_bool_function" then
                      match v with VBool b => b | _ => false end
                    else if String.eqb g "check_f32_function" then
                      match v with VFloat z => Z.eqb z 6 | _ => false end
                    else true)
      (fun _ z => show_Z z) (fun _ s => parse_int I64 s).

Definition writes (E : env) (id : nat) (v : value) (t : string) : Prop :=
  to_string x1 E id v = SOk (joined "" (decl +++ t)).
Definition reads (E : env) (id : nat) (t : string) (v : value) : Prop :=
  from_str x1 E 80 id t = OOk v.
Definition both (E : env) (id : nat) (v : value) (t : string) : Prop :=
  writes E id v t /\ reads E id t v.
Ltac replay := repeat split; vm_compute; reflexivity.

Definition tfloat b := TBase (BSimple (SFloat b)).
Definition ren l r t := fldA l (a_rename r ya0) t.
Definition attrf l t := fldA l (a_attr ya0) t.
Definition attr_ren l r t := fldA l (a_attr (a_rename r ya0)) t.
Definition base_ fs := struct_ "XmlStruct" (a_rename "base" ya0) fs.

(** ** deserializer.rs *)

Example de_keyword :
  reads [struct_ "Book" (a_rename "book" ya0) [attr_ren "ref" "ref" tstr]] 0
    "<book ref=""978-1522968122""></book>" (VRec [VStr "978-1522968122"]).
Proof. replay. Qed.

Example de_dash_param :
  let E := [struct_ "Book" (a_rename "book" ya0) [ren "author" "author-release" tstr; fld "title" tstr]] in
  let v := VRec [VStr "Antoine de Saint-Exupéry"; VStr "Little prince"] in
  reads E 0 "<book><author-release>Antoine de Saint-Exupéry</author-release><title>Little prince</title></book>" v /\
  reads E 0 "<book><title>Little prince</title><author-release>Antoine de Saint-Exupéry</author-release></book>" v.
Proof. replay. Qed.

Definition E_lib : env :=
  [struct_ "Library" (a_rename "library" ya0) [fld "books" (TVec (BSimple SString))];
   struct_ "Libraries" (a_rename "libraries" ya0) [fld "library" (TVec (BUser 0))]].
Example de_list_of_items :
  reads E_lib 0 "<library><books>Little Prince</books><books>Harry Potter</books></library>"
    (VRec [VVec [VStr "Little Prince"; VStr "Harry Potter"]]) /\
  reads E_lib 1 "<libraries><library><books>Little Prince</books></library><library><books>Harry Potter</books></library></libraries>"
    (VRec [VVec [VRec [VVec [VStr "Little Prince"]]; VRec [VVec [VStr "Harry Potter"]]]]).
Proof. replay. Qed.

Example de_attributes :
  reads [base_ [attrf "item" tstr; fld "sub" (tuser 1)];
         struct_ "SubStruct" (a_rename "sub" ya0) [attrf "subitem" tstr]] 0
    "<base item=""something""><sub subitem=""sub-something""></sub></base>"
    (VRec [VStr "something"; VRec [VStr "sub-something"]]).
Proof. replay. Qed.

Definition E_attr_complex : env :=
  [struct_ "Struct" ya0 [attrf "attr_option_string" (TOpt (BSimple SString));
                         attrf "attr_option_enum" (TOpt (BUser 1))];
   enum_ "AttrEnum" ya0 [Variant "Variant1" (a_rename "variant 1" ya0) VbUnit;
                         Variant "Variant2" (a_rename "variant 2" ya0) VbUnit] (VVar 0 [])].
Example attributes_complex :
  both E_attr_complex 0 (VRec [VOpt None; VOpt None]) "<Struct />" /\
  both E_attr_complex 0 (VRec [VOpt (Some (VStr "some value")); VOpt (Some (VVar 1 []))])
    "
    <Struct attr_option_string=""some value"" attr_option_enum=""variant 2"" />
    ".
Proof. replay. Qed.

Example de_attributes_with_same_name_field :
  let E := [struct_ "Struct" ya0 [attr_ren "attribute" "content" (TOpt (BSimple SString));
                                  fld "content" (TOpt (BSimple SString))]] in
  reads E 0 "<Struct />" (VRec [VOpt None; VOpt None]) /\
  reads E 0 "<Struct content=""attribute"" />" (VRec [VOpt (Some (VStr "attribute")); VOpt None]) /\
  reads E 0 "<Struct content=""attribute""><content>Field</content></Struct>"
    (VRec [VOpt (Some (VStr "attribute")); VOpt (Some (VStr "Field"))]).
Proof. replay. Qed.

Definition E_rename : env :=
  [base_ [attr_ren "item" "Item" tstr; ren "sub_struct" "sub" (tuser 1); ren "version" "maj.min.bug" tstr];
   struct_ "SubStruct" (a_rename "sub" ya0) [attr_ren "subitem" "sub_item" tstr]].
Example rename :
  reads E_rename 0 "<base Item=""something""><sub sub_item=""sub_something""></sub><maj.min.bug>2.0.1</maj.min.bug></base>"
    (VRec [VStr "something"; VRec [VStr "sub_something"]; VStr "2.0.1"]) /\
  writes E_rename 0 (VRec [VStr "something"; VRec [VStr "sub_something"]; VStr "2.0.2"])
    "<base Item=""something""><sub sub_item=""sub_something"" /><maj.min.bug>2.0.2</maj.min.bug></base>".
Proof. replay. Qed.

Example text_content_with_attributes :
  both [base_ [attr_ren "item" "Item" tstr; ren "sub_struct" "sub" (tuser 1)];
        struct_ "SubStruct" (a_rename "sub" ya0)
          [attr_ren "subitem" "sub_item" tstr; fldA "text" (a_text ya0) tstr]] 0
    (VRec [VStr "something"; VRec [VStr "sub_something"; VStr "text_content"]])
    "<base Item=""something""><sub sub_item=""sub_something"">text_content</sub></base>".
Proof. replay. Qed.

Example text_attribute_on_optional_string :
  let E := [base_ [fldA "text" (a_text ya0) (TOpt (BSimple SString))]] in
  both E 0 (VRec [VOpt (Some (VStr "Testing text"))]) "<base>Testing text</base>" /\
  both E 0 (VRec [VOpt None]) "<base></base>".
Proof. replay. Qed.

Definition color_bw := enum_ "Color" (a_rename "color" ya0) [vunit "White"; vunit "Black"] (VVar 0 []).
Example de_enum :
  reads [base_ [fld "background" (tuser 1)]; color_bw] 0
    "<?xml version=""1.0"" encoding=""utf-8""?><base><background>Black</background></base>"
    (VRec [VVar 1 []]) /\
  reads [struct_ "Colors" (a_rename "base" ya0) [fld "items" (TVec (BUser 1))]; color_bw] 0
    "<?xml version=""1.0"" encoding=""utf-8""?><base><items>Black</items><items>White</items></base>"
    (VRec [VVec [VVar 1 []; VVar 0 []]]) /\
  reads [base_ [attrf "background" (tuser 1)]; color_bw] 0
    "<?xml version=""1.0"" encoding=""utf-8""?><base background=""Black"" />" (VRec [VVar 1 []]).
Proof. replay. Qed.

Definition E_complex : env :=
  [struct_ "XmlStruct" ya0 [fld "background" (tuser 1)];
   enum_ "Color" ya0
     [vunit "White"; vnew "Black" tstr; vnew "Orange" tstr; vnew "Red" (tint I32); vnew "Green" (tuser 2);
      vnew "Yellow" (TOpt (BSimple SString)); vnew "Brown" (TOpt (BUser 2));
      vnew "Blue" (TVec (BSimple SString)); vnew "Purple" (TVec (BSimple (SInt I32)));
      vnew "Magenta" (TVec (BUser 2));
      Variant "Cyan" (a_rename "NotSoCyan" ya0) (VbNew false (TVec (BUser 2)));
      Variant "Dotted" (a_rename "renamed.with.dots" ya0) (VbNew false (tint U32))] (VVar 0 []);
   other_struct].
Example de_complex_enum :
  reads E_complex 0 "<?xml version=""1.0"" encoding=""utf-8""?>
    <base>
      <background>
        <Black>text</Black>
      </background>
    </base>
  " (VRec [VVar 1 [VStr "text"]]) /\
  reads E_complex 0 "<?xml version=""1.0"" encoding=""utf-8""?>
    <base>
      <background>
        <Orange>text</Orange>
      </background>
    </base>
  " (VRec [VVar 2 [VStr "text"]]) /\
  reads E_complex 0 "<?xml version=""1.0"" encoding=""utf-8""?>
    <base>
      <background>
        <Red>56</Red>
      </background>
    </base>
  " (VRec [VVar 3 [VInt 56]]) /\
  reads E_complex 0 "<?xml version=""1.0"" encoding=""utf-8""?>
    <base>
      <background>
        <Green>
          <fi>12</fi>
          <se>23</se>
        </Green>
      </background>
    </base>
  " (VRec [VVar 4 [VRec [VInt 12; VInt 23]]]) /\
  reads E_complex 0 "<?xml version=""1.0"" encoding=""utf-8""?>
    <base>
      <background>
        <Yellow>text</Yellow>
      </background>
    </base>
  " (VRec [VVar 5 [VOpt (Some (VStr "text"))]]) /\
  reads E_complex 0 "<?xml version=""1.0"" encoding=""utf-8""?>
    <base>
      <background>
        <Brown>
          <fi>12</fi>
          <se>23</se>
        </Brown>
      </background>
    </base>
  " (VRec [VVar 6 [VOpt (Some (VRec [VInt 12; VInt 23]))]]) /\
  reads E_complex 0 "<?xml version=""1.0"" encoding=""utf-8""?>
    <base>
      <background>
        <Blue>abc</Blue>
        <Blue>def</Blue>
      </background>
    </base>
  " (VRec [VVar 7 [VVec [VStr "abc"; VStr "def"]]]) /\
  reads E_complex 0 "<?xml version=""1.0"" encoding=""utf-8""?>
    <base>
      <background>
        <Purple>12</Purple>
        <Purple>43</Purple>
      </background>
    </base>
  " (VRec [VVar 8 [VVec [VInt 12; VInt 43]]]) /\
  reads E_complex 0 "<?xml version=""1.0"" encoding=""utf-8""?>
    <base>
      <background>
        <Magenta><fi>12</fi><se>23</se></Magenta>
        <Magenta><fi>63</fi><se>98</se></Magenta>
      </background>
    </base>
  " (VRec [VVar 9 [VVec [VRec [VInt 12; VInt 23]; VRec [VInt 63; VInt 98]]]]) /\
  reads E_complex 0 "<?xml version=""1.0"" encoding=""utf-8""?>
    <base xmlns:ns=""http://www.sample.com/ns/domain"">
      <background>
        <NotSoCyan><fi>12</fi><se>23</se></NotSoCyan>
        <NotSoCyan><fi>63</fi><se>98</se></NotSoCyan>
      </background>
    </base>
  " (VRec [VVar 10 [VVec [VRec [VInt 12; VInt 23]; VRec [VInt 63; VInt 98]]]]) /\
  reads E_complex 0 "<?xml version=""1.0"" encoding=""utf-8""?>
    <base xmlns:ns=""http://www.sample.com/ns/domain"">
      <background>
        <renamed.with.dots>54</renamed.with.dots>
      </background>
    </base>
  " (VRec [VVar 11 [VInt 54]]).
Proof. replay. Qed.

Example de_name_issue_21 :
  reads [struct_ "Book" (a_rename "book" ya0) [fld "name" tstr]] 0
    "<book><name>Little prince</name></book>" (VRec [VStr "Little prince"]).
Proof. replay. Qed.

Definition issue12_txt := "<?xml version=""1.0"" encoding=""utf-8""?>
    <Struct>
      <id>54</id>
      <SubStruct>
        <id>86</id>
      </SubStruct>
    </Struct>
    ".
Example de_subitem_issue_12 :
  reads [struct_ "Struct" ya0 [fld "id" (tint I32)]] 0 issue12_txt (VRec [VInt 54]) /\
  reads [struct_ "Struct" ya0 [fld "id" (tint I32); ren "sub" "SubStruct" (tuser 1)];
         struct_ "SubStruct" ya0 [fld "id" (tint I32)]] 0 issue12_txt (VRec [VInt 54; VRec [VInt 86]]).
Proof. replay. Qed.

Example de_subitem_issue_12_attributes :
  reads [struct_ "Struct" ya0 [attrf "id" (tint I32)]] 0
    "<?xml version=""1.0"" encoding=""utf-8""?>
    <Struct id=""54"">
      <SubStruct id=""86"" />
    </Struct>
    " (VRec [VInt 54]) /\
  reads [struct_ "Struct" ya0 [attrf "id" (tint I32); fld "sub1" (tuser 1); fld "sub2" (tuser 1)];
         struct_ "SubStruct" ya0 [attrf "id" (tint I32)]] 0
    "<?xml version=""1.0"" encoding=""utf-8""?>
    <Struct id=""54"">
      <sub1 id=""63"" />
      <sub2 id=""72"" />
    </Struct>
    " (VRec [VInt 54; VRec [VInt 63]; VRec [VInt 72]]).
Proof. replay. Qed.

Example de_same_field_name_sub :
  let E := [struct_ "Struct" ya0 [fld "sub" (tuser 1)];
            struct_ "SubStruct" ya0 [fld "sub" (TOpt (BSimple (SInt I32)))]] in
  reads E 0 "<Struct><sub /></Struct>" (VRec [VRec [VOpt None]]) /\
  reads E 0 "<Struct><sub><sub>42</sub></sub></Struct>" (VRec [VRec [VOpt (Some (VInt 42))]]).
Proof. replay. Qed.

Example de_same_field_name_sub_sub :
  let E := [struct_ "Struct" ya0 [fld "sub" (tuser 1)];
            struct_ "SubStruct" ya0 [fld "sub" (TOpt (BUser 2))];
            struct_ "SubSubStruct" ya0 [fld "sub" (tint I32)]] in
  reads E 0 "<Struct><sub /></Struct>" (VRec [VRec [VOpt None]]) /\
  reads E 0 "<Struct>
      <sub>
        <sub>
          <sub>
            42
          </sub>
        </sub>
      </sub>
    </Struct>" (VRec [VRec [VOpt (Some (VRec [VInt 42]))]]).
Proof. replay. Qed.

Example same_field_name_but_some_other_fields :
  both [struct_ "FooOuter" (a_rename "foo" ya0) [fld "other" tbool; ren "foo" "foo" (TOpt (BUser 1))];
        struct_ "FooInner" ya0 [fld "blah" tbool]] 0
    (VRec [VBool false; VOpt (Some (VRec [VBool false]))])
    "
    <foo>
      <other>false</other>
      <foo>
        <blah>false</blah>
      </foo>
    </foo>
  ".
Proof. replay. Qed.

Example de_attribute_sequence :
  reads [struct_ "Outer" ya0 [attr_ren "seq1" "seq1" (TVec (BSimple (SInt I32)));
                              attr_ren "seq2" "seq2" (TVec (BUser 1));
                              attr_ren "seq3" "seq3" (TVec (BSimple SString))];
         enum_ "Inner" ya0 [Variant "Foo" (a_rename "foo" ya0) VbUnit;
                            Variant "Bar" (a_rename "bar" ya0) VbUnit] (VVar 0 [])] 0
    "<Outer seq1=""1 2 3 4"" seq2=""foo foo bar"" seq3=""one two"" />"
    (VRec [VVec [VInt 1; VInt 2; VInt 3; VInt 4]; VVec [VVar 0 []; VVar 0 []; VVar 1 []];
           VVec [VStr "one"; VStr "two"]]).
Proof. replay. Qed.

(** ** cdata.rs, default.rs *)

Example cdata :
  both [struct_ "TestStruct" (a_rename "teststruct" ya0) [fldA "msgdata" (a_cdata ya0) tstr]] 0
    (VRec [VStr "<tag>Some unescaped content</tag>"])
    "<teststruct><msgdata><![CDATA[<tag>Some unescaped content</tag>]]></msgdata></teststruct>".
Proof. replay. Qed.

Example default_fields :
  let E d t := [base_ [fldA "background" (a_default d ya0) t]] in
  both (E "default_string" tstr) 0 (VRec [VStr "my_default_value"]) "<base />" /\
  both (E "default_string" tstr) 0 (VRec [VStr "my_value"]) "<base><background>my_value</background></base>" /\
  both (E "default_boolean" tbool) 0 (VRec [VBool true]) "<base />" /\
  both (E "default_boolean" tbool) 0 (VRec [VBool false]) "<base><background>false</background></base>" /\
  both (E "default_number" (tint U8)) 0 (VRec [VInt 6]) "<base />" /\
  both (E "default_number" (tint U8)) 0 (VRec [VInt 4]) "<base><background>4</background></base>".
Proof. replay. Qed.

Example default_attribute_string :
  let E := [base_ [fldA "background" (a_attr (a_default "default_string" ya0)) tstr]] in
  both E 0 (VRec [VStr "my_default_value"]) "<base />" /\
  both E 0 (VRec [VStr "black"]) "<base background=""black"" />".
Proof. replay. Qed.

(** [module_inclusion]; also generic.rs, where [G] is instantiated. *)
Example module_inclusion :
  both [base_ [fld "background" (tuser 1)];
        struct_ "Module" (a_rename "module" ya0) [attrf "color" tstr]] 0
    (VRec [VRec [VStr "blue"]]) "<base><background color=""blue"" /></base>" /\
  both [struct_ "Base" (a_rename "base" ya0) [fld "background" (tuser 1)];
        struct_ "Generic" ya0 [attrf "color" tstr]] 0
    (VRec [VRec [VStr "blue"]]) "<base><background color=""blue"" /></base>".
Proof. replay. Qed.

(** ** errors.rs *)

Example errors :
  from_str x1 [book] 80 0 "" = OErr "Unexpected end of stream: no root element found" /\
  from_str x1 [book] 80 0 "<book><author>Antoine de Saint-Exupéry<title>Little prince</title></book>"
    = OErr "Unexpected closing tag: book != author".
Proof. replay. Qed.

(** ** enum.rs *)

Definition E_basic_enum : env :=
  [base_ [fld "color" (tuser 1)];
   enum_ "Color" (a_rename "color" ya0)
     [vunit "White"; vunit "Black";
      Variant "Custom" (a_rename "custom" ya0) (VbNamed
        [fld "enabled" tstr; fld "u8_value" (tint U8); fld "i8_value" (tint I8);
         fld "u16_value" (tint U16); fld "i16_value" (tint I16); fld "u32_value" (tint U32);
         fld "i32_value" (tint I32); fld "u64_value" (tint U64); fld "i64_value" (tint I64);
         fld "f32_value" (tfloat false); fld "f64_value" (tfloat true);
         fld "color" (tuser 2); fld "alpha" (tuser 3); fld "alphas" (TVec (BUser 3))])] (VVar 0 []);
   struct_ "RGBColor" ya0 [fld "red" tstr; fld "green" tstr; fld "blue" tstr];
   enum_ "Alpha" ya0 [vunit "Transparent"; vunit "Opaque"] (VVar 0 [])].
Example basic_enum :
  both E_basic_enum 0 (VRec [VVar 1 []]) "<base><color>Black</color></base>" /\
  writes E_basic_enum 0
    (VRec [VVar 2 [VStr "true"; VInt 8; VInt (-8); VInt 16; VInt (-16); VInt 32; VInt (-32); VInt 64;
                   VInt (-64); VFloat 2; VFloat 3; VRec [VStr "0"; VStr "128"; VStr "255"];
                   VVar 1 []; VVec [VVar 1 []; VVar 0 []]]])
    "
<base>
<color><enabled>true</enabled>
<u8_value>8</u8_value>
<i8_value>-8</i8_value>
<u16_value>16</u16_value>
<i16_value>-16</i16_value>
<u32_value>32</u32_value>
<i32_value>-32</i32_value>
<u64_value>64</u64_value>
<i64_value>-64</i64_value>
<f32_value>32</f32_value>
<f64_value>64</f64_value>
<color><red>0</red><green>128</green><blue>255</blue></color>
<alpha>Opaque</alpha>
<alphas>Opaque</alphas>
<alphas>Transparent</alphas>
</color>
</base>".
Proof. replay. Qed.

Example attribute_enum2_base2 :
  both [child1; enum_ "Base2" (a_rename "base" ya0)
                  [Variant "C1" (a_flatten ya0) (VbNew false (tuser 0))]
                  (VVar 0 [VRec [VStr "hello world"]])] 1
    (VVar 0 [VRec [VStr "hello world"]]) "<base><child1 val=""hello world"" /></base>".
Proof. replay. Qed.

Example unnamed_enum_rest :
  let E := [xml_struct;
            enum_ "Enum" ya0 [vunit "Simple"; vnew "FullPath" tstr; vnew "OptionUserStruct" (TOpt (BUser 2));
              Variant "ToRenameDots" (a_rename "renamed.with.dots" ya0) (VbNew false (tint U32))] (VVar 0 []);
            other_struct] in
  both E 0 (VRec [VVar 1 [VStr "some_text"]]) "<base><color><FullPath>some_text</FullPath></color></base>" /\
  writes E 0 (VRec [VVar 2 [VOpt None]]) "<base><color /></base>" /\
  both E 0 (VRec [VVar 3 [VInt 84]])
    "<base><color><renamed.with.dots>84</renamed.with.dots></color></base>".
Proof. replay. Qed.

Example tagged_enum_rest :
  both [tagged; tag_struct] 0 (VVar 0 []) "<foobar type=""foo"" />" /\
  both [tagged; tag_struct] 1 (VRec [VVar 0 []]) "<base><foobar type=""foo"" /></base>".
Proof. replay. Qed.

(** ** flatten.rs *)

Example basic_flatten :
  both E_dt 0
    (VRec [VRec [VInt 2020; VInt 1; VInt 1; VRec [VInt 1; VInt 21]; VOpt (Some (VRec [VInt 1]))];
           VStr "10:40:03";
           VVar 0 [VVec [VStr "New Year's Day"; VStr "Novy God Day"; VStr "Polar Bear Swim Day"]]])
    "
    <DateTime>
      <year>2020</year>
      <month>1</month>
      <day>1</day>
      <week>1</week>
      <century>21</century>
      <lunar_day>1</lunar_day>
      <time>10:40:03</time>
      <holidays>New Year's Day</holidays>
      <holidays>Novy God Day</holidays>
      <holidays>Polar Bear Swim Day</holidays>
    </DateTime>".
Proof. replay. Qed.

Example root_flatten_enum :
  let E := [enum_ "Content" (a_flatten ya0) [vnew "Binary" (tuser 1); vnew "Data" (tuser 2)]
              (VVar 0 [VRec [VStr ""]]);
            struct_ "Binary" ya0 [fld "binary_data" tstr]; struct_ "Data" ya0 [fld "string_data" tstr]] in
  writes E 0 (VVar 0 [VRec [VStr "binary"]]) "<Binary><binary_data>binary</binary_data></Binary>" /\
  writes E 0 (VVar 1 [VRec [VStr "string"]]) "<Data><string_data>string</string_data></Data>".
Proof. replay. Qed.

Example flatten_attribute_and_child :
  both [struct_ "Node" ya0 [fldA "base" (a_flatten ya0) (tuser 1); fld "value" (tuser 2)];
        struct_ "Base" ya0 [attrf "id" tstr];
        struct_ "StringValue" ya0 [fldA "string" (a_text ya0) tstr]] 0
    (VRec [VRec [VStr "Foo"]; VRec [VStr "Bar"]]) "<Node id=""Foo""><value>Bar</value></Node>".
Proof. replay. Qed.

(** ** namespace.rs *)

Definition dom := "http://www.sample.com/ns/domain".
Definition ns1f l t := fldA l (a_prefix "ns" ya0) t.
Definition exupery := VRec [VStr "Antoine de Saint-Exupéry"; VStr "Little prince"].

Example struct_simple_namespace :
  both [struct_ "Book" (a_rename "book" (a_prefix "ns" (a_ns [("ns", dom)] ya0)))
          [ns1f "author" tstr; ns1f "title" tstr]] 0 exupery
    "
    <ns:book xmlns:ns=""http://www.sample.com/ns/domain"">
      <ns:author>Antoine de Saint-Exupéry</ns:author>
      <ns:title>Little prince</ns:title>
    </ns:book>
  ".
Proof. replay. Qed.

Definition book2 := struct_ "Book"
  (a_rename "book" (a_prefix "ns" (a_ns [("ns", dom); ("ns2", "http://www.sample.com/ns/domain_2")] ya0)))
  [ns1f "author" tstr; fldA "title" (a_prefix "ns2" ya0) tstr].
Example struct_multiple_namespaces :
  both [book2] 0 exupery
    "
    <ns:book xmlns:ns=""http://www.sample.com/ns/domain"" xmlns:ns2=""http://www.sample.com/ns/domain_2"">
      <ns:author>Antoine de Saint-Exupéry</ns:author>
      <ns2:title>Little prince</ns2:title>
    </ns:book>
  " /\
  (* struct_sub_namespace_definition *)
  reads [book2] 0
    "
    <ns:book xmlns:ns=""http://www.sample.com/ns/domain"">
      <ns:author>Antoine de Saint-Exupéry</ns:author>
      <ns2:title xmlns:ns2=""http://www.sample.com/ns/domain_2"">Little prince</ns2:title>
    </ns:book>
  " exupery /\
  (* struct_bad_namespace *)
  from_str x1 [book2] 80 0
    "
    <ns:book xmlns:ns=""http://www.sample.com/ns/domain2"">
      <ns:author>Antoine de Saint-Exupéry</ns:author>
      <ns:title>Little prince</ns:title>
    </ns:book>
  " = OErr "bad namespace for book, found http://www.sample.com/ns/domain2".
Proof. replay. Qed.

Example struct_partial_namespace :
  both [struct_ "Book" (a_rename "book" (a_prefix "ns" (a_ns [("ns", dom)] ya0)))
          [fld "author" tstr; ns1f "title" tstr]] 0 exupery
    "
    <ns:book xmlns:ns=""http://www.sample.com/ns/domain"">
      <author>Antoine de Saint-Exupéry</author>
      <ns:title>Little prince</ns:title>
    </ns:book>
  ".
Proof. replay. Qed.

Example struct_namespace_nested_defined_at_root :
  both [struct_ "A" (a_prefix "nsa" (a_ns [("nsa", "http://www.sample.com/ns/a")] ya0))
          [fldA "alpha" (a_prefix "nsa" ya0) (tint I32)];
        struct_ "B" (a_prefix "nsb" (a_ns [("nsa", "http://www.sample.com/ns/a");
                                           ("nsb", "http://www.sample.com/ns/b")] ya0))
          [fldA "nested" (a_prefix "nsb" ya0) (tuser 0)]] 1 (VRec [VRec [VInt 32]])
    "
    <nsb:B xmlns:nsa=""http://www.sample.com/ns/a"" xmlns:nsb=""http://www.sample.com/ns/b"">
      <nsb:nested>
        <nsa:alpha>32</nsa:alpha>
      </nsb:nested>
    </nsb:B>
  ".
Proof. replay. Qed.

(** [struct_implicit_default_namespace], [struct_explicit_default_namespace]. *)
Example struct_default_namespace :
  writes [struct_ "XmlStruct" (a_rename "tt" (a_dns "ttml"
            (a_ns [("ttm", "http://www.w3.org/ns/ttml#metadata"); ("ttml", "http://www.w3.org/ns/ttml")] ya0)))
            [fld "item" tstr]] 0 (VRec [VStr "something"])
    "<tt xmlns=""http://www.w3.org/ns/ttml"" xmlns:ttm=""http://www.w3.org/ns/ttml#metadata""><item>something</item></tt>".
Proof. replay. Qed.

Example enum_namespace :
  both [enum_ "XmlStruct" (a_rename "root" (a_prefix "ns" (a_ns [("ns", dom)] ya0)))
          [Variant "Item" (a_prefix "ns" ya0) VbUnit] (VVar 0 [])] 0 (VVar 0 [])
    "
    <ns:root xmlns:ns=""http://www.sample.com/ns/domain"">
      ns:Item
    </ns:root>
  ".
Proof. replay. Qed.

Example enum_multi_namespaces :
  let E := [enum_ "XmlStruct" (a_rename "root"
              (a_ns [("ns1", "http://www.sample.com/ns/domain1"); ("ns2", "http://www.sample.com/ns/domain2")] ya0))
              [Variant "Item1" (a_prefix "ns1" ya0) VbUnit; Variant "Item2" (a_prefix "ns2" ya0) VbUnit]
              (VVar 0 [])] in
  both E 0 (VVar 0 [])
    "
    <root xmlns:ns1=""http://www.sample.com/ns/domain1"" xmlns:ns2=""http://www.sample.com/ns/domain2"">
      ns1:Item1
    </root>
  " /\
  writes E 0 (VVar 1 [])
    "
    <root xmlns:ns1=""http://www.sample.com/ns/domain1"" xmlns:ns2=""http://www.sample.com/ns/domain2"">
      ns2:Item2
    </root>
  ".
Proof. replay. Qed.

Example enum_attribute_namespace :
  let E := [enum_ "XmlStruct" (a_rename "rootA" (a_prefix "ns" (a_ns [("ns", dom)] ya0)))
              [Variant "Item" (a_prefix "ns" ya0) VbUnit;
               Variant "ItemWithField" (a_prefix "ns" ya0) (VbNew false tstr)] (VVar 0 [])] in
  both E 0 (VVar 0 [])
    "
    <ns:rootA xmlns:ns=""http://www.sample.com/ns/domain"">
      ns:Item
    </ns:rootA>
  " /\
  both E 0 (VVar 1 [VStr "Value"])
    "<ns:rootA xmlns:ns=""http://www.sample.com/ns/domain""><ns:ItemWithField>Value</ns:ItemWithField></ns:rootA>".
Proof. replay. Qed.

Example struct_default_namespace_no_prefix :
  both [struct_ "Book" (a_rename "book" (a_prefix "ns" (a_dns "ns" (a_ns [("ns", dom)] ya0))))
          [ns1f "author" tstr; ns1f "title" tstr]] 0 exupery
    "
    <book xmlns=""http://www.sample.com/ns/domain"">
      <author>Antoine de Saint-Exupéry</author>
      <title>Little prince</title>
    </book>
  ".
Proof. replay. Qed.

(** ** option.rs, types.rs: [test_for_type!], [test_for_attribute_type!] *)

Definition for_type (t : fty) (v : value) (content : option string) : Prop :=
  both [struct_ "Data" (a_rename "data" ya0) [fld "item" t]] 0 (VRec [v])
    (match content with Some s => "<data><item>" +++ s +++ "</item></data>" | None => "<data />" end).
Definition for_attribute_type (t : fty) (v : value) (content : option string) : Prop :=
  both [struct_ "Data" (a_rename "data" ya0) [attrf "item" t]] 0 (VRec [v])
    (match content with Some s => "<data item=""" +++ s +++ """ />" | None => "<data />" end).
Definition type_cases : list (simple * value * string) :=
  [(SString, VStr "test", "test"); (SBool, VBool true, "true");
   (SInt U8, VInt 12, "12"); (SInt I8, VInt 12, "12"); (SInt I8, VInt (-12), "-12");
   (SInt U16, VInt 12, "12"); (SInt I16, VInt 12, "12"); (SInt I16, VInt (-12), "-12");
   (SInt U32, VInt 12, "12"); (SInt I32, VInt 12, "12"); (SInt I32, VInt (-12), "-12");
   (SInt U64, VInt 12, "12"); (SInt I64, VInt 12, "12"); (SInt I64, VInt (-12), "-12");
   (SFloat false, VFloat 1, "-12.5"); (SFloat true, VFloat 1, "-12.5")].
Example basic_types :
  Forall (fun c => let '(s, v, t) := c in
    for_type (TBase (BSimple s)) v (Some t) /\
    for_attribute_type (TBase (BSimple s)) v (Some t) /\
    for_type (TOpt (BSimple s)) (VOpt (Some v)) (Some t) /\
    for_type (TOpt (BSimple s)) (VOpt None) None /\
    for_attribute_type (TOpt (BSimple s)) (VOpt (Some v)) (Some t) /\
    for_attribute_type (TOpt (BSimple s)) (VOpt None) None) type_cases.
Proof. repeat constructor; vm_compute; reflexivity. Qed.
Example vec_types :
  for_type (TVec (BSimple SString)) (VVec []) None /\
  for_type (TVec (BSimple SString)) (VVec [VStr "test"]) (Some "test").
Proof. replay. Qed.

Definition E_option_struct t : env :=
  [struct_ "Data" (a_rename "data" ya0) [fld "item" t]; struct_ "Test" ya0 [fld "field" (tuser 2)];
   struct_ "SubTest" ya0 [fld "content" (TOpt (BSimple SString))]].
Example option_struct :
  both (E_option_struct (TOpt (BUser 1))) 0 (VRec [VOpt (Some (VRec [VRec [VOpt (Some (VStr "value"))]]))])
    "<data><item><field><content>value</content></field></item></data>" /\
  both (E_option_struct (TOpt (BUser 1))) 0 (VRec [VOpt None]) "<data />".
Proof. replay. Qed.

Example option_bool_no_crash_on_bad_input :
  exists m, from_str x1 [struct_ "Test" ya0 [fld "field" (tuser 1)];
                         struct_ "SubTest" ya0 [attrf "content" (TOpt (BSimple SBool))]] 80 0
              "<field><content>/<R/" = OErr m.
Proof. eexists. vm_compute. reflexivity. Qed.

Example deserialize_without_car :
  reads [struct_ "Person" ya0 [fldA "car" (a_flatten ya0) (TOpt (BUser 1))];
         struct_ "Car" ya0 [ren "color" "CarColor" tstr; ren "brand" "CarBrand" tstr]] 0
    "<?xml version=""1.0"" encoding=""utf-8""?>
      <Person>
          <EyeColor>brown</EyeColor>
          <Age>25</Age>
          <HasHome>true</HasHome>
          <HasGarden>false</HasGarden>
      </Person>
    " (VRec [VOpt None]).
Proof. replay. Qed.

(** ** serializer.rs *)

Definition sub_items := struct_ "SubStruct" (a_rename "items" ya0) [fld "field" tstr].
Definition two_items := VRec [VVec [VRec [VStr "something1"]; VRec [VStr "something2"]]].
Example ser_list_of_items :
  writes [base_ [fld "item" tstr]] 0 (VRec [VStr "something"]) "<base><item>something</item></base>" /\
  writes [base_ [fld "items" (TVec (BSimple SString))]] 0 (VRec [VVec [VStr "something1"; VStr "something2"]])
    "<base><items>something1</items><items>something2</items></base>" /\
  writes [base_ [fld "items" (TVec (BUser 1))]; sub_items] 0 two_items
    "<base><items><field>something1</field></items><items><field>something2</field></items></base>" /\
  writes [base_ [ren "items" "listField" (TVec (BUser 1))]; sub_items] 0 two_items
    "<base><listField><field>something1</field></listField><listField><field>something2</field></listField></base>" /\
  writes [base_ [fldA "items" (a_flatten ya0) (TVec (BUser 1))]; sub_items] 0 two_items
    "<base><field>something1</field><field>something2</field></base>".
Proof. replay. Qed.

Example ser_attributes :
  writes [base_ [attrf "item" tstr; fld "sub" (tuser 1)];
          struct_ "SubStruct" (a_rename "sub" ya0) [attrf "subitem" tstr]] 0
    (VRec [VStr "something"; VRec [VStr "sub-something"]])
    "<base item=""something""><sub subitem=""sub-something"" /></base>" /\
  writes [base_ [attr_ren "ref" "ref" tstr]] 0 (VRec [VStr "978-1522968122"])
    "<base ref=""978-1522968122"" />" /\
  writes [base_ [fld "name" tstr]] 0 (VRec [VStr "something"]) "<base><name>something</name></base>".
Proof. replay. Qed.

(** ** skip.rs, skip_if.rs *)

Definition child_ := struct_ "XmlStructChild" (a_rename "child" ya0) [].
Definition enum_ok_ := enum_ "XmlEnum" (a_rename "child" ya0) [vunit "Ok"] (VVar 0 []).
Example skip_serializing :
  let f a t := fldA "skipped_serializing" a t in
  let bytes := VVec [VInt 1; VInt 2; VInt 3] in
  Forall (fun a =>
    writes [base_ [f a tstr]] 0 (VRec [VStr "skipped serializing"]) "<base />" /\
    writes [base_ [f a (tuser 1)]; child_] 0 (VRec [VRec []]) "<base />" /\
    writes [base_ [f a (tuser 1)]; enum_ok_] 0 (VRec [VVar 0 []]) "<base />" /\
    writes [base_ [f a (TVec (BSimple (SInt I8)))]] 0 (VRec [bytes]) "<base />")
    [a_skip ya0; a_skip_if "check_child" ya0].
Proof. repeat constructor; vm_compute; reflexivity. Qed.

Example skip_serializing_if :
  Forall (fun a =>
    writes [base_ [fldA "string_with_default_item"
                     (a_skip_if "check_string_function" (a_default "default_string_function" a)) tstr;
                   fldA "string_item" (a_skip_if "check_string_function" a) tstr;
                   fldA "bool_item" (a_skip_if "check_bool_function" a) tbool;
                   fldA "f32_item" (a_skip_if "check_f32_function" a) (tfloat false);
                   fldA "option_string_item" (a_skip_if "check_option_string_function" a)
                     (TOpt (BSimple SString))]] 0
      (VRec [VStr "mask_default"; VStr "something"; VBool true; VFloat 6; VOpt (Some (VStr "something"))])
      "<base />")
    [ya0; a_attr ya0].
Proof. repeat constructor; vm_compute; reflexivity. Qed.

(** ** examples/src *)

Definition soap := [("s", "http://schemas.xmlsoap.org/soap/envelope/")].
Definition upnp := [("u", "urn:schemas-upnp-org:service:AVTransport:1")].
Definition envelope (body : nat) := struct_ "SoapEnvelope" (a_rename "Envelope" (a_ns soap (a_prefix "s" ya0)))
  [fldA "encoding_style" (a_rename "encodingStyle" (a_prefix "s" (a_attr ya0))) tstr;
   fldA "tnsattr" (a_rename "u" (a_prefix "xmlns" (a_attr ya0))) (TOpt (BSimple SString));
   fldA "urnattr" (a_rename "urn" (a_prefix "xmlns" (a_attr ya0))) (TOpt (BSimple SString));
   fldA "xsiattr" (a_rename "xsi" (a_prefix "xmlns" (a_attr ya0))) (TOpt (BSimple SString));
   fldA "header" (a_rename "Header" (a_prefix "s" ya0)) (TOpt (BUser 1));
   fldA "body" (a_rename "Body" (a_prefix "s" ya0)) (tuser body)].
Definition E_soap (body : nat) : env :=
  [envelope body; struct_ "Header" ya0 [];
   struct_ "SoapPlay" (a_ns upnp ya0)
     [fldA "body" (a_rename "Play" (a_prefix "u" (a_default "default_play" ya0))) (tuser 3)];
   struct_ "Play" (a_rename "Play" (a_prefix "u" ya0))
     [fldA "parameters" (a_flatten (a_default "default_play2" ya0)) (tuser 4)];
   struct_ "Play2" (a_rename "Play" (a_ns upnp (a_prefix "u" ya0)))
     [fldA "instance_id" (a_rename "InstanceID" (a_default "default_i32" ya0)) (tint I32);
      fldA "speed" (a_rename "Speed" (a_default "default_i32" ya0)) (tint I32)];
   TypeDef "Meters" ya0 (DPrim (PInner (SInt I32)))].
Definition envelope_val (b : value) :=
  VRec [VStr ""; VOpt None; VOpt None; VOpt None; VOpt None; b].
Definition round (E : env) (id : nat) (v : value) : Prop :=
  exists t, to_string x1 E id v = SOk t /\ from_str x1 E 80 id t = OOk v.
Example test_for_generic_newtype : round (E_soap 5) 0 (envelope_val (VInt 10)).
Proof. eexists. split; [vm_compute; reflexivity | vm_compute; reflexivity]. Qed.
Example test_for_generic_nested_struct :
  round (E_soap 2) 0 (envelope_val (VRec [VRec [VRec [VInt 20; VInt 1]]])).
Proof. eexists. split; [vm_compute; reflexivity | vm_compute; reflexivity]. Qed.

Example same_element_different_namespaces :
  reads [struct_ "ErrorType" (a_prefix "myns"
           (a_ns [("ext", "http://my_namespace_2/"); ("myns", "http://my_namespace_1/")] ya0))
           [fldA "reason_code" (a_rename "reasonCode" (a_prefix "myns" ya0)) (TOpt (BSimple (SInt U16)));
            fldA "ext_reason_code" (a_rename "reasonCode" (a_prefix "ext" ya0)) (TOpt (BSimple (SInt U16)))]] 0
    "
    <error_type xmlns=""http://my_namespace_1/"" xmlns:ext=""http://my_namespace_2/"">
      <reasonCode>12</reasonCode>
      <ext:reasonCode>32</ext:reasonCode>
    </error_type>
  " (VRec [VOpt (Some (VInt 12)); VOpt (Some (VInt 32))]).
Proof. replay. Qed.

Example parsing_ln_dom :
  reads
    [struct_ "Level" (a_rename "DOMSymbolItem" ya0)
       [attrf "last_modified" (tint U64); attr_ren "named" "name" tstr; fld "timeline" (tuser 1)];
     struct_ "Timeline" ya0 [ren "timeline" "DOMTimeline" (tuser 2)];
     struct_ "DOMTimeline" ya0 [attr_ren "named" "name" tstr; attrf "current_frame" (tint U64);
                                attrf "guides" (tint U64); fld "layers" (tuser 3)];
     struct_ "Layers" ya0 [ren "dom_layer" "DOMLayer" (TVec (BUser 4))];
     struct_ "DOMLayer" ya0 [attr_ren "named" "name" tstr; attrf "name2" tstr]] 0
    "<DOMSymbolItem name=""dagger"" last_modified=""1414141442"">
  <timeline>
    <DOMTimeline name=""dagger timeline name"" current_frame=""7"" guides=""11"">
      <layers>
        <DOMLayer name=""Layer 2"" name2=""Lalayer 2"">
        </DOMLayer>
        <DOMLayer name=""Layer 1"" name2=""Lalayer 1"">
        </DOMLayer>
      </layers>
    </DOMTimeline>
  </timeline>
</DOMSymbolItem>
"
    (VRec [VInt 1414141442; VStr "dagger";
           VRec [VRec [VStr "dagger timeline name"; VInt 7; VInt 11;
             VRec [VVec [VRec [VStr "Layer 2"; VStr "Lalayer 2"]; VRec [VStr "Layer 1"; VStr "Lalayer 1"]]]]]]).
Proof. replay. Qed.

Definition excel := [("html", "http://www.w3.org/TR/REC-html40"); ("o", "urn:schemas-microsoft-com:office:office");
  ("ss", "urn:schemas-microsoft-com:office:spreadsheet"); ("x", "urn:schemas-microsoft-com:office:excel")].
Definition ssa l r p t := fldA l (a_attr (a_rename r (a_prefix p ya0))) t.
Definition sse l r t := fldA l (a_rename r (a_prefix "ss" ya0)) t.
Definition xls n fs := struct_ n (a_prefix "ss" (a_ns excel ya0)) fs.
Example parsing_bbigras_namespace :
  reads
    [xls "Workbook" [sse "worksheet" "Worksheet" (tuser 1)];
     xls "Worksheet" [sse "table" "Table" (tuser 2); ssa "ws_name" "Name" "ss" tstr];
     xls "Table" [ssa "expanded_column_count" "ExpandedColumnCount" "ss" (tint U32);
                  ssa "expanded_row_count" "ExpandedRowCount" "ss" (tint U32);
                  ssa "full_columns" "FullColumns" "x" (tint U32); ssa "full_rows" "FullRows" "x" (tint U32);
                  ssa "style_id" "StyleID" "ss" tstr;
                  ssa "default_column_width" "DefaultColumnWidth" "ss" (tfloat false);
                  ssa "default_column_height" "DefaultRowHeight" "ss" (tfloat false);
                  sse "rows" "Row" (TVec (BUser 3))];
     xls "Row" [ssa "auto_fit_height" "AutoFitHeight" "ss" (tfloat false);
                ssa "height" "Height" "ss" (tfloat false)]] 0
    "<?xml version=""1.0""?>
<?mso-application progid=""Excel.Sheet""?>
<Workbook xmlns=""urn:schemas-microsoft-com:office:spreadsheet"" xmlns:html=""http://www.w3.org/TR/REC-html40"" xmlns:o=""urn:schemas-microsoft-com:office:office"" xmlns:ss=""urn:schemas-microsoft-com:office:spreadsheet"" xmlns:x=""urn:schemas-microsoft-com:office:excel"">
	<Worksheet ss:Name=""some_name"">
		<Table ss:DefaultColumnWidth=""60.75"" ss:DefaultRowHeight=""15"" ss:ExpandedColumnCount=""11"" ss:ExpandedRowCount=""195"" ss:StyleID=""s64"" x:FullColumns=""1"" x:FullRows=""1"">
			<Row ss:AutoFitHeight=""0"" ss:Height=""33""/>
		</Table>
	</Worksheet>
</Workbook>
"
    (VRec [VRec [VRec [VInt 11; VInt 195; VInt 1; VInt 1; VStr "s64"; VFloat 4; VFloat 5;
                       VVec [VRec [VFloat 6; VFloat 7]]]; VStr "some_name"]]).
Proof. replay. Qed.

Definition strs l := map (fun n => fld n tstr) l.
Example parsing_svd :
  to_string_with_config x1
    [struct_ "Device" (a_rename "device" ya0)
       [attrf "schemaversion" tstr; attrf "xmlns" tstr; attrf "xsnonamespaceschemalocation" tstr;
        fld "devattributes" (tuser 1)];
     struct_ "DevAttrs" ya0
       (strs ["vendor"; "vendorid"; "name"; "series"; "version"; "description"; "licensetext"]
        ++ [fld "cpu" (tuser 2); fld "addressunitbits" (tint U8); fld "width" (tint U8); fld "size" (tint U8)]
        ++ strs ["access"; "resetvalue"; "resetmask"] ++ [fld "peripherals" (TVec (BUser 3))]);
     struct_ "CpuDef" ya0 (strs ["name"; "revision"; "endian"]
        ++ [fld "mpupresent" tbool; fld "fpupresent" tbool; fld "vendorsystickconfig" tbool]);
     struct_ "Peripheral" ya0 (strs ["name"; "version"; "description"; "groupname"; "baseaddress"]
        ++ [fld "size" (tint U8); fld "access" tstr; fld "registers" (TVec (BUser 4))]);
     struct_ "Register" ya0 (strs ["name"; "description"; "addressoffset"]
        ++ [fld "size" (tint U8)] ++ strs ["access"; "resetvalue"; "resetmask"]
        ++ [fld "fields" (TVec (BUser 5))]);
     struct_ "Field" ya0 (strs ["name"; "description"; "bitrange"; "access"])]%list
    (Config true true None) 0
    (VRec [VStr "foo"; VStr "http://www.w3.org/2001/XMLSchema-instance"; VStr "CMSIS-SVD.xsd";
      VRec [VStr "Renesas"; VStr "Renesas"; VStr "V850"; VStr "E1/E2/CA2"; VStr "1.2";
            VStr "NEC/Renesas V850 automotive grade ICs"; VStr "GPLv3";
            VRec [VStr "V850"; VStr "r1"; VStr "LE"; VBool false; VBool false; VBool false];
            VInt 8; VInt 32; VInt 32; VStr "read-write"; VStr "0x00000000"; VStr "0xFFFFFFFF";
            VVec [VRec [VStr "Specific Registers"; VStr "1.0"; VStr "Specific Registers"; VStr "MCU";
                        VStr "0xFFFFF1FC"; VInt 16; VStr "read-write";
              VVec [VRec [VStr "PRCMD";
                VStr "This command register (PRCMD) is to protect the registers that may have a significant influence on the application system (PSC, PSM) from an inadvertent write access, so that the system does not stop in case of a program hang-up.";
                VStr "0xFFFFF1FC"; VInt 8; VStr "read-write"; VStr "0x0000"; VStr "0xFFFF"; VVec []]]]]]])
  = SOk "<?xml version=""1.0"" encoding=""utf-8""?>
<device schemaversion=""foo"" xmlns=""http://www.w3.org/2001/XMLSchema-instance"" xsnonamespaceschemalocation=""CMSIS-SVD.xsd"">
  <devattributes>
    <vendor>Renesas</vendor>
    <vendorid>Renesas</vendorid>
    <name>V850</name>
    <series>E1/E2/CA2</series>
    <version>1.2</version>
    <description>NEC/Renesas V850 automotive grade ICs</description>
    <licensetext>GPLv3</licensetext>
    <cpu>
      <name>V850</name>
      <revision>r1</revision>
      <endian>LE</endian>
      <mpupresent>false</mpupresent>
      <fpupresent>false</fpupresent>
      <vendorsystickconfig>false</vendorsystickconfig>
    </cpu>
    <addressunitbits>8</addressunitbits>
    <width>32</width>
    <size>32</size>
    <access>read-write</access>
    <resetvalue>0x00000000</resetvalue>
    <resetmask>0xFFFFFFFF</resetmask>
    <peripherals>
      <name>Specific Registers</name>
      <version>1.0</version>
      <description>Specific Registers</description>
      <groupname>MCU</groupname>
      <baseaddress>0xFFFFF1FC</baseaddress>
      <size>16</size>
      <access>read-write</access>
      <registers>
        <name>PRCMD</name>
        <description>This command register (PRCMD) is to protect the registers that may have a significant influence on the application system (PSC, PSM) from an inadvertent write access, so that the system does not stop in case of a program hang-up.</description>
        <addressoffset>0xFFFFF1FC</addressoffset>
        <size>8</size>
        <access>read-write</access>
        <resetvalue>0x0000</resetvalue>
        <resetmask>0xFFFF</resetmask>
      </registers>
    </peripherals>
  </devattributes>
</device>".
Proof. replay. Qed.

(** ** In Conform.v only with shortened documents *)

Example de_basic :
  reads [book] 0 "<book><author>Antoine de Saint-Exupéry</author><title>Little prince</title></book>" exupery /\
  reads [book] 0 "<book><title>Little prince</title><author>Antoine de Saint-Exupéry</author></book>" exupery.
Proof. replay. Qed.

Example de_multiple_segments :
  reads [book_page; page] 0 "
      <book>
        <author>Antoine de Saint-Exupéry</author>
        <title>Little prince</title>
        <page>
          <number>40</number>
          <text>The Earth is not just an ordinary planet!</text>
        </page>
      </book>
    " (VRec [VStr "Antoine de Saint-Exupéry"; VStr "Little prince";
            VRec [VInt 40; VStr "The Earth is not just an ordinary planet!"]]).
Proof. replay. Qed.

Example struct_namespace_nested :
  both [struct_ "A" (a_prefix "nsa" (a_ns [("nsa", "http://www.sample.com/ns/a")] ya0))
          [fldA "alpha" (a_prefix "nsa" ya0) (tint I32)];
        struct_ "B" (a_prefix "nsb" (a_ns [("nsb", "http://www.sample.com/ns/b")] ya0))
          [fldA "nested" (a_prefix "nsb" ya0) (tuser 0)]] 1 (VRec [VRec [VInt 32]])
    "
    <nsb:B xmlns:nsb=""http://www.sample.com/ns/b"">
      <nsb:nested xmlns:nsa=""http://www.sample.com/ns/a"">
        <nsa:alpha>32</nsa:alpha>
      </nsb:nested>
    </nsb:B>
  ".
Proof. replay. Qed.

Example struct_attribute_namespace :
  both [struct_ "XmlStruct" (a_rename "root"
          (a_ns [("ns1", "http://www.sample.com/ns/domain1"); ("ns2", "http://www.sample.com/ns/domain2")] ya0))
          [fldA "item_1" (a_prefix "ns1" ya0) tstr; fldA "item_2" (a_attr (a_prefix "ns2" ya0)) tstr]] 0
    (VRec [VStr "something 1"; VStr "something 2"])
    "
    <root xmlns:ns1=""http://www.sample.com/ns/domain1"" xmlns:ns2=""http://www.sample.com/ns/domain2"" ns2:item_2=""something 2"">
      <ns1:item_1>something 1</ns1:item_1>
    </root>
  ".
Proof. replay. Qed.

Example flatten_attribute :
  both [struct_ "HtmlText" ya0 [fldA "text_attributes" (a_flatten ya0) (tuser 1); attrf "display" tstr];
        struct_ "TextAttributes" ya0 [attrf "bold" tbool; fldA "font" (a_flatten ya0) (tuser 2)];
        struct_ "FontAttributes" (a_ns [("ns", dom)] ya0) [fldA "size" (a_attr (a_prefix "ns" ya0)) (tint U32)]] 0
    (VRec [VRec [VBool true; VRec [VInt 24]]; VStr "block"])
    "
    <HtmlText xmlns:ns=""http://www.sample.com/ns/domain"" display=""block"" bold=""true"" ns:size=""24"" />".
Proof. replay. Qed.

Example struct_default_namespace_via_attribute_with_prefix :
  both [struct_ "XmlStruct" (a_rename "tt" (a_prefix "TTML" (a_dns "TTML"
          (a_ns [("TTML", "http://www.w3.org/ns/ttml"); ("ttm", "http://www.w3.org/ns/ttml#metadata")] ya0))))
          [fldA "item" (a_prefix "TTML" ya0) tstr]] 0 (VRec [VStr "something"])
    "<tt xmlns=""http://www.w3.org/ns/ttml"" xmlns:ttm=""http://www.w3.org/ns/ttml#metadata""><item>something</item></tt>".
Proof. replay. Qed.
