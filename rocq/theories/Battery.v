(** * Instances of the properties, as a test suite of the model.

    Each entry is a case of the property it is named after, computed with the
    executable model alone, without the specifications and the proofs.  When
    the model is changed on purpose (see seeded/LOG.jsonl) the entries that
    become false show which properties the changed model violates; that a
    proof breaks would not show that.  These are tests, not proofs. *)
From Verif Require Import Str Num Xml XmlText Reader Schema De Ser Macro Options Conform Checked SpecCut Bytes.
Open Scope list_scope.

Fixpoint veq (a b : value) {struct a} : bool :=
  let veqs := fix veqs (l m : list value) : bool :=
    match l, m with [], [] => true | x :: l, y :: m => veq x y && veqs l m | _, _ => false end in
  match a, b with
  | VStr s, VStr t => String.eqb s t
  | VBool s, VBool t => Bool.eqb s t
  | VInt s, VInt t | VFloat s, VFloat t | VUser s, VUser t => Z.eqb s t
  | VOpt None, VOpt None => true
  | VOpt (Some s), VOpt (Some t) => veq s t
  | VVec l, VVec m | VRec l, VRec m => veqs l m
  | VVar i l, VVar j m => Nat.eqb i j && veqs l m
  | _, _ => false
  end.
Definition oeq (a b : outcome value) : bool :=
  match a, b with
  | OOk v, OOk w => veq v w
  | OErr m, OErr n | OPanic m, OPanic n => String.eqb m n
  | OFuel, OFuel => true
  | _, _ => false
  end.
Definition seq (a b : sres string) : bool :=
  match a, b with SOk s, SOk t => String.eqb s t | SErr s, SErr t => String.eqb s t | SStuck, SStuck => true | _, _ => false end.

Definition rd E id s := from_str x0 E 100 id s.
Definition reads E id s v := oeq (rd E id s) (OOk v).
Definition fails E id s m := oeq (rd E id s) (OErr m).
Definition accepts E id s := match rd E id s with OOk _ => true | _ => false end.
Definition refuses E id s := match rd E id s with OErr _ => true | _ => false end.
Definition same E id s t := accepts E id s && oeq (rd E id s) (rd E id t).
Definition both E id s t := oeq (rd E id s) (rd E id t).
Definition writes E id v t := seq (to_string x0 E id v) (SOk (decl +++ t)).
Definition trips E id v := match to_string x0 E id v with SOk t => reads E id t v | _ => false end.
Definition trips_with c E id v := match to_string_with_config x0 E c id v with SOk t => reads E id t v | _ => false end.

(** ** The types *)
Definition page_ := struct_ "Page" ya0 [fld "number" (tint I32); fld "text" tstr].
Definition person_ := struct_ "Person" ya0
  [fldA "id" (a_attr ya0) (tint I32); fld "name" tstr; fldA "tags" (a_rename "tag" ya0) (TVec (BSimple SString));
   fld "page" (TOpt (BUser 1)); fld "age" (TOpt (BSimple (SInt U8))); fldA "note" (a_text ya0) (TOpt (BSimple SString));
   fldA "bg" (a_default "default_string" ya0) tstr].
Definition Ep := [person_; page_].
Definition p_val tags page := VRec [VInt 7; VStr "Ann"; VVec (map VStr tags); page; VOpt None; VOpt None; VStr "my_default_value"].
Definition p_page := VOpt (Some (VRec [VInt 40; VStr "hi"])).
Definition pdoc a b := "<Person id='7'" +++ a +++ ">" +++ b +++ "</Person>".
Definition pname := "<name>Ann</name>".
Definition ppage := "<page><number>40</number><text>hi</text></page>".
Definition pfull := pdoc "" (pname +++ "<tag>x</tag><tag>y</tag>" +++ ppage).
Definition pv := p_val ["x"; "y"] p_page.

(** ** Reader *)
Definition nm' s := Name s None None.
Definition evs1 := [EStartDoc; EStart (nm' "a") [] []; EComment "c"; EStart (nm' "b") [] []; EChars "t"; EEnd (nm' "b"); EPI "p";
                    EChars "u"; EEnd (nm' "a"); EEndDoc].

(** A peek before every call. *)
Fixpoint peeking {A} (p : prog A) : prog A :=
  match p with
  | Ret a => Ret a | Throw m => Throw m | Crash m => Crash m | Stuck => Stuck
  | Peek k => Peek (fun _ => Peek (fun r => peeking (k r)))
  | Next k => Peek (fun _ => Next (fun r => peeking (k r)))
  | Depth k => Peek (fun _ => Depth (fun d => peeking (k d)))
  end.
Definition c01 E id s := oeq (fst (run (peeking (de x0 E 100 id)) (d_init (parse_text s)))) (rd E id s).

(** Read to the end, with and without peeks; the depth is that of the events. *)
Fixpoint depths (n d : nat) (pk : bool) (st : dstate) : bool :=
  match n with
  | O => true
  | S n =>
      let st := if pk then snd (peek st) else st in
      match next_event st with
      | (Some (Ok e), st') =>
          let d' := match e with EStart _ _ _ => S d | EEnd _ => d - 1 | _ => d end in
          Nat.eqb (d_depth st') d' && depths n d' (negb pk) st'
      | (Some (Er _), st') => true
      | (None, _) => false
      end
  end.
Definition noise (l : list event) := flat_map (fun e => [EComment "x"; EPI "y"; e]) l.
Definition c03 E id s := let t := parse_text s in
  oeq (from_events x0 E 100 id (Stream (noise (s_evs t)) (s_fin t))) (from_events x0 E 100 id t).
Definition c04 :=
  match run (skip_element 50 (fun n e => Ret (S n)) 0) (DState 2 (Stream [EChars "a"; EStart (nm' "b") [] []; EEnd (nm' "b"); EEnd (nm' "c"); EChars "z"] FEnd) None) with
  | (OOk 4, DState 1 (Stream [EChars "z"] FEnd) None) => true
  | _ => false
  end.
Definition c04_error :=
  match fst (run (skip_element 50 (fun n e => Ret (S n)) 0) (DState 2 (Stream [EChars "a"] (FErr "cut")) None)) with
  | OErr "cut" => true | _ => false end.
Definition c05 e :=
  match run (read_inner_value (Next (fun _ => Ret 5))) (DState 1 (Stream [EStart (nm' "a") [] []; EChars "x"; e; EChars "z"] FEnd) None) with
  | (OOk 5, DState 1 (Stream [EChars "z"] FEnd) None) => true
  | _ => false
  end.
Definition c06 E id s t := oeq (rd E id (s +++ t)) (rd E id s) && accepts E id s.

(** ** Writer *)
Fixpoint nestedb (d : nat) (l : list wevent) : bool :=
  match l with
  | [] => Nat.eqb d 0
  | WStart _ _ _ :: r => nestedb (S d) r
  | WEnd _ :: r => match d with O => false | S d => nestedb d r end
  | WChars _ :: r | WCData _ :: r => match d with O => false | _ => nestedb d r end
  end.
Definition c21 E id v :=
  match ser_events x0 E id v with
  | SOk (WStart _ _ _ :: l) => nestedb 1 l && negb (existsb (fun k => nestedb 1 (firstn k l)) (List.seq 0 (List.length l)))
  | _ => false
  end.
Definition c24 E id v :=
  match ser_events x0 E id v with
  | SOk l => forallb (fun k =>
      match ser x0 E id v (Nat.eqb k) w_init with
      | (SErr _, w) => Nat.eqb (List.length (w_evs w)) k && Nat.eqb (w_calls w) (S k)
      | _ => false
      end) (List.seq 0 (List.length l))
  | _ => false
  end.
Definition prefixes_fail E id s :=
  forallb (fun k => refuses E id (String.substring 0 k s)) (List.seq 0 (String.length s)).

Definition every_char := let c n := String (ascii_of_nat n) "" in
  String.concat "" (map c (List.seq 33 94)).
Definition str1 := struct_ "S" ya0 [fldA "a" (a_attr ya0) tstr; fld "e" tstr].
Definition txt1 := struct_ "S" ya0 [fldA "a" (a_text ya0) tstr].
Definition vecattr := struct_ "S" ya0 [fldA "l" (a_attr ya0) (TVec (BSimple (SInt I32)))].
Definition holder t := struct_ "S" ya0 [fld "f" t].
Definition kind_ := enum_ "Kind" ya0 [vunit "A"; vnew "B" (tint I32)] (VVar 0 []).
Definition prims := [struct_ "S" ya0 [fld "p" (tuser 1); fldA "q" (a_attr ya0) (tuser 2); fld "h" (tuser 3)];
  TypeDef "P" ya0 (DPrim (PInner (SInt U16))); TypeDef "Q" ya0 (DPrim (PInner SString)); TypeDef "H" ya0 (DPrim (PHex U8 255))].
Definition bools := [struct_ "S" ya0 [fld "b" tbool]].
Definition nots := [struct_ "S" ya0 [fldA "k" (a_skip_if "always" ya0) tstr; fldA "h" (a_skip ya0) tstr; fldA "d" (a_default "default_number" ya0) (tint I32);
                                    fldA "e" (a_attr (a_default "default_string" ya0)) tstr; fld "z" (tint I8)]].

Definition num_ok i z := match parse_int i (show_Z z) with Ok y => Z.eqb y z | Er _ => false end.
Definition num_bad i s := match parse_int i s with Ok _ => false | Er _ => true end.
Definition num_is i s z := match parse_int i s with Ok y => Z.eqb y z | Er _ => false end.
Definition mok_ {A} (m : mres A) := match m with MOk _ => true | _ => false end.
Definition ty_ s := RPath [(s, None)].
Definition tyA_ s t := RPath [(s, Some [Some t])].
Definition one_ (a : list rattr) (t : rty) : ritem := RItem "S" [] (RStruct (RNamed [RField (Some "x") a t])).

Open Scope Z_scope.
Definition battery : list (string * bool) :=
  [ ("C01", c01 Ep 0 pfull && c01 E_dt 0 dt_txt && c01 E_html 0 html_txt && c01 E_enum 0 "<base><color><Field>q</Field></color></base>");
    ("C02", forallb (fun b => depths 40 0 b (d_init (Stream evs1 FEnd))) [true; false]);
    ("C03", c03 Ep 0 pfull && c03 E_dt 0 dt_txt && c03 E_html 0 html_txt && c03 E_flat 2 "<child2 num=""7"" />");
    ("C04", c04); ("C04", c04_error);
    ("C05", c05 (EEnd (nm' "a"))); ("C05", negb (c05 (EEnd (nm' "b")))); ("C05", negb (c05 (EEnd (Name "a" None (Some "u"))))); ("C05", negb (c05 (EChars "y")));
    ("C06", c06 Ep 0 pfull "<!-- z -->" && c06 Ep 0 pfull "<b>" && c06 Ep 0 pfull "  ");
    ("C07", forallb (fun i => num_ok i 0 && num_ok i 127) [I8; I16; I32; I64; U8; U16; U32; U64]);
    ("C07", num_ok I8 (-128) && num_ok I16 (-32768) && num_ok I32 (-2147483648) && num_ok I64 (-9223372036854775808));
    ("C07", num_ok U8 255 && num_ok U16 65535 && num_ok U32 4294967295 && num_ok U64 18446744073709551615);
    ("C08", num_is I8 "+7" 7 && num_is U8 "+7" 7 && num_is I8 "-0" 0 && num_is U8 "007" 7);
    ("C08", num_bad I8 "128" && num_bad I8 "-129" && num_bad U8 "256" && num_bad U8 "-1" && num_bad U8 "" && num_bad I8 "-" && num_bad I8 "+" && num_bad I8 "1 " && num_bad I8 "+-1");
    ("C09", reads bools 0 "<S><b>true</b></S>" (VRec [VBool true]) && reads bools 0 "<S><b>1</b></S>" (VRec [VBool true]) && reads bools 0 "<S><b>false</b></S>" (VRec [VBool false]) && reads bools 0 "<S><b>0</b></S>" (VRec [VBool false]));
    ("C09", refuses bools 0 "<S><b>True</b></S>" && refuses bools 0 "<S><b>2</b></S>");
    ("C09", writes bools 0 (VRec [VBool true]) "<S><b>true</b></S>" && writes bools 0 (VRec [VBool false]) "<S><b>false</b></S>");
    ("C10", reads Ep 0 (pdoc "" pname) (p_val [] (VOpt None)));
    ("C10", fails Ep 0 (pdoc "" "") "name is a required field of Person");
    ("C10", fails Ep 0 "<Person><name>Ann</name></Person>" "id is a required field of Person");
    ("C10", fails [txt1] 0 "<S/>" "a is a required field of S");
    ("C11", same Ep 0 pfull (pdoc "" ("<tag>x</tag>" +++ ppage +++ "<tag>y</tag>" +++ pname)));
    ("C11", same E_dt 0 dt_txt "<DateTime><holidays>New</holidays><holidays>Novy</holidays><holidays>Polar</holidays><time>10:40:03</time><lunar_day>1</lunar_day><century>21</century><week>1</week><day>1</day><month>1</month><year>2020</year></DateTime>" );
    ("C12", reads Ep 0 (pdoc "" "<name>Bob</name><tag>x</tag><tag>y</tag><name>Ann</name><tag>z</tag>") (p_val ["x"; "y"; "z"] (VOpt None)));
    ("C12", reads Ep 0 (pdoc "" (pname +++ "<age>3</age><age>x</age>")) (VRec [VInt 7; VStr "Ann"; VVec []; VOpt None; VOpt (Some (VInt 3)); VOpt None; VStr "my_default_value"]));
    ("C13", same Ep 0 pfull (pdoc "" (pname +++ "<zz><name>Eve</name>t<tag>q</tag></zz><tag>x</tag><tag>y</tag>" +++ ppage)));
    ("C13", same Ep 0 pfull (pdoc " zz='9'" (pname +++ "<tag>x</tag><tag>y</tag>" +++ ppage)));
    ("C14", same Ep 0 pfull (pdoc "" ("<name id='8'>Ann</name><tag id='9'>x</tag><tag>y</tag>" +++ ppage +++ "<zz id='5'/>")));
    ("C15", same Ep 0 pfull ("<Other id='7'>" +++ pname +++ "<tag>x</tag><tag>y</tag>" +++ ppage +++ "</Other>"));
    ("C15", fails [book_ns] 0 "<ns:book xmlns:ns='other'><ns:author>A</ns:author></ns:book>" "bad namespace for book, found other");
    ("C15", fails Ep 0 "<Person xmlns='u' id='7'/>" "bad namespace for Person, found u");
    ("C15", same [book_ns] 0 book_ns_txt "<q:book xmlns:q='u1' xmlns:r='u2'><q:author>A</q:author><r:title>T</r:title></q:book>");
    ("C16", same Ep 0 (pdoc "" pname) (pdoc "" (pname +++ "<age>300</age>")) && same Ep 0 (pdoc "" pname) (pdoc "" (pname +++ "<age/>")));
    ("C16", fails Ep 0 ("<Person id='x'>" +++ pname +++ "</Person>") "invalid digit found in string");
    ("C17", match from_str x0 Ep 40 0 (pdoc "" (pname +++ "<zz><a><b/><c>t</c></a></zz>")) with OFuel => false | _ => true end);
    ("C17", forallb (fun s => match rd Ep 0 s with OFuel => false | _ => true end) [""; "x"; "<"; "<Person"; "<Person>"; "<Person id='7'><name>"; "<Person id='7'><name>A<b>"; "<a></b>"; "</a>"; "<Person id='7'>x"]);
    ("C17", forallb (fun s => match rd [struct_ "L" ya0 [fld "name" tstr; fld "s" (TVec (BUser 1))]; struct_ "H" ya0 [fld "k" (tuser 2); fld "t" tstr; fld "w" (tuser 3)]; enum_ "K" ya0 [vunit "Oak"] (VVar 0 []); enum_ "W" ya0 [vnew "T" (tuser 1); vnew "N" (tint U8)] (VVar 0 [])] 0 s with OFuel => false | _ => true end)
              ["<L><s><k>Oak</k><zz><t/><k/></zz></s><s><w><T><t>x</t></T></w>"; "<L><s><w><N>1</N><N/></w></s><s/></L>"; "<L><name/><s>x<t>y</t><k/></s><s></L>"; "<Z><s><w><zz/></w><t/></s></Z>"]);
    ("C18", forallb (fun s => match rd Ep 0 s with OPanic _ => false | _ => true end) [""; "x"; "<"; "<Person"; "<Person>"; "<Person id='7'><name></Person>"; "</a>"; "<a></b>"; "<Person id='7'></name></Person>"; "<Person id='300'/>"]);
    ("C19", reads [struct_ "L" ya0 [fld "i" (TVec (BUser 1)); fld "after" (tint I32)]; page_] 0
              "<L><i><number>1</number><text>a</text><x><y/></x></i> <i><number>2</number><text>b</text></i><after>3</after></L>"
              (VRec [VVec [VRec [VInt 1; VStr "a"]; VRec [VInt 2; VStr "b"]]; VInt 3]));
    ("C20", fails [page_] 0 "<Page><number>4294967296</number><text>t</text></Page>" "number is a required field of Page");
    ("C21", c21 Ep 0 pv && c21 E_dt 0 dt_val && c21 E_html 0 html_val && c21 E_enum 0 (VRec [VVar 8 [VVec [VRec [VInt 12; VInt 23]; VRec [VInt 34; VInt 45]]]]) && c21 [tagged; tag_struct] 1 (VRec [VVar 1 []]));
    ("C22", writes Ep 0 pv ("<Person id=""7""><name>Ann</name><tag>x</tag><tag>y</tag><page><number>40</number><text>hi</text></page></Person>"));
    ("C22", writes Ep 0 (p_val [] (VOpt None)) ("<Person id=""7""><name>Ann</name></Person>"));
    ("C22", writes [holder (TOptVec (BSimple (SInt I32)))] 0 (VRec [VOpt (Some (VVec [VInt 1; VInt 2]))]) "<S><f>1</f><f>2</f></S>" && writes [holder (TOptVec (BSimple (SInt I32)))] 0 (VRec [VOpt None]) "<S />");
    ("C23", writes nots 0 (VRec [VStr "a"; VStr "b"; VInt 42; VStr "my_default_value"; VInt 1]) "<S><z>1</z></S>");
    ("C23", writes nots 0 (VRec [VStr "a"; VStr "b"; VInt 41; VStr "q"; VInt 1]) "<S e=""q""><d>41</d><z>1</z></S>");
    ("C24", c24 Ep 0 pv && c24 E_dt 0 dt_val && c24 E_html 0 html_val);
    ("C25", writes [struct_ "S" ya0 [fldA "f" (a_flatten ya0) (tuser 1); fld "p" (tuser 2); fld "q" tstr]; page_; page_] 0
              (VRec [VRec [VInt 1; VStr "t"]; VRec [VInt 2; VStr "u"]; VStr "w"])
              "<S><number>1</number><text>t</text><p><number>2</number><text>u</text></p><q>w</q></S>");
    ("C26", trips [book_ns] 0 (VRec [VStr "A"; VStr "T"]) && trips [nsA; nsB] 1 (VRec [VRec [VInt 32]]) && trips [tt_] 0 (VRec [VStr "x"]) && trips [attr_ns] 0 (VRec [VStr "a"; VStr "b"]));
    ("C26", writes [tt_] 0 (VRec [VStr "something"]) tt_txt && writes [book_ns] 0 (VRec [VStr "A"; VStr "T"]) book_ns_txt);
    ("C28", trips Ep 0 pv && trips Ep 0 (p_val [] (VOpt None)) && trips E_dt 0 dt_val && trips E_html 0 html_val);
    ("C28", trips [struct_ "S" ya0 [fldA "id" (a_attr ya0) (TOpt (BSimple (SInt I32))); fldA "t" (a_text ya0) tstr]] 0 (VRec [VOpt (Some (VInt (-5))); VStr "words"]));
    ("C28", trips [struct_ "S" ya0 [fldA "id" (a_attr ya0) (TOpt (BSimple (SInt I32))); fldA "t" (a_text ya0) tstr]] 0 (VRec [VOpt None; VStr "a b"]));
    ("C28", trips [struct_ "A" ya0 [fld "v" (tint I32); fld "b" (TOpt (BUser 1))]; struct_ "B" ya0 [fld "w" tstr; fld "a" (TVec (BUser 0))]] 0
              (VRec [VInt 1; VOpt (Some (VRec [VStr "w"; VVec [VRec [VInt 2; VOpt None]; VRec [VInt 3; VOpt (Some (VRec [VStr "u"; VVec []]))]]]))]));
    ("C29", forallb (fun v => trips E_enum 0 (VRec [v])) [VVar 0 []; VVar 1 [VStr "x"]; VVar 2 [VInt (-3)]; VVar 3 [VRec [VInt 1; VInt 2]]; VVar 4 [VOpt (Some (VStr "y"))]; VVar 5 [VOpt (Some (VRec [VInt 1; VInt 2]))]; VVar 6 [VVec [VStr "a"; VStr "b"]]; VVar 7 [VVec [VInt 1; VInt 2; VInt 3]]; VVar 8 [VVec [VRec [VInt 1; VInt 2]; VRec [VInt 3; VInt 4]]]; VVar 9 [VInt 87]]);
    ("C29", trips [struct_ "L" ya0 [fld "k" (TVec (BUser 1)); fld "o" (TOpt (BUser 1))]; kind_] 0 (VRec [VVec [VVar 0 []; VVar 1 [VInt 5]; VVar 0 []]; VOpt (Some (VVar 1 [VInt 6]))]));
    ("C30", reads [holder (tuser 1); kind_] 0 "<S><f>zzz</f></S>" (VRec [VVar 0 []]) && reads [holder (tuser 1); enum_ "K" ya0 [vunit "A"; vunit "B"] (VVar 1 [])] 0 "<S><f><zz><y/></zz>q</f></S>" (VRec [VVar 1 []]));
    ("C30", reads [holder (tuser 1); enum_ "K" ya0 [vunit "A"; vunit "B"] (VVar 1 [])] 0 "<S><f>A</f></S>" (VRec [VVar 0 []]));
    ("C31", writes [tagged; tag_struct] 0 (VVar 1 []) "<foobar type=""bar"" />" && trips [tagged; tag_struct] 0 (VVar 1 []) && trips [tagged; tag_struct] 1 (VRec [VVar 0 []]));
    ("C31", fails [tagged; tag_struct] 0 "<foobar/>" "Expected enum tagged with type");
    ("C32", trips [attr_enum; pink] 0 (VRec [VVar 0 []]) && writes [attr_enum; pink] 0 (VRec [VVar 0 []]) "<base color=""pink"" />");
    ("C32", trips prims 0 (VRec [VInt 5; VStr "q"; VInt 0]) && writes prims 0 (VRec [VInt 5; VStr "q"; VInt 0]) "<S q=""q""><p>5</p><h>00</h></S>");
    ("C33", trips prims 1 (VInt 65535) && trips prims 2 (VStr "hello"));
    ("C34", reads E_dt 0 dt_txt dt_val && writes E_dt 0 dt_val dt_txt && reads E_html 0 html_txt html_val && writes E_html 0 html_val html_txt);
    ("C34", trips E_node 0 (VRec [VRec [VStr "Foo"]; VVar 0 [VRec []]]));
    ("C35", trips [str1] 0 (VRec [VStr every_char; VStr "x"]) && trips [str1] 0 (VRec [VStr "x"; VStr every_char]) && trips [txt1] 0 (VRec [VStr every_char]));
    ("C35", trips [str1] 0 (VRec [VStr "a"" b='c' />"; VStr "</e></S><!-- ]]> &amp; <?x?>"]));
    ("C36", trips [cdata_t] 0 (VRec [VStr "<p>hi</p> & ]] >"]));
    ("C37", trips_with (Config true true None) Ep 0 pv && trips_with (Config true false (Some "   ")) E_dt 0 dt_val);
    ("C37", trips_with (Config true true None) E_enum 0 (VRec [VVar 3 [VRec [VInt 1; VInt 2]]]));
    ("C39", reads Ep 0 (pdoc "" ("hello " +++ pname)) (VRec [VInt 7; VStr "Ann"; VVec []; VOpt None; VOpt None; VOpt (Some (VStr "hello")); VStr "my_default_value"]));
    ("C40", reads [vecattr] 0 "<S l='1  2 x 3'/>" (VRec [VVec [VInt 1; VInt 2; VInt 3]]) || refuses [vecattr] 0 "<S l='1  2 x 3'/>");
    ("C40", reads [vecattr] 0 "<S l='1 2 3'/>" (VRec [VVec [VInt 1; VInt 2; VInt 3]]));
    ("C41", prefixes_fail Ep 0 pfull && prefixes_fail E_html 0 html_txt && prefixes_fail [book_ns] 0 book_ns_txt);
    ("C42", same [attr_ns] 0 attr_ns_txt "<root a:item_2='something 2' xmlns:a='d2'><item_1 xmlns='d1'>something 1</item_1></root>");
    ("C42", same Ep 0 pfull "<Person zz='1' id='7'><name>Ann</name><tag xmlns:q='u'>x</tag><tag>y</tag><page><number>40</number><text>hi</text></page></Person>");
    ("C43", negb (seq (to_string x0 Ep 0 pv) (to_string x0 Ep 0 (p_val ["xy"] p_page))) && negb (seq (to_string x0 E_enum 0 (VRec [VVar 1 [VStr "x"]])) (to_string x0 E_enum 0 (VRec [VVar 6 [VVec [VStr "x"]]]))));
    ("C43", negb (seq (to_string x0 [str1] 0 (VRec [VStr "<"; VStr "x"])) (to_string x0 [str1] 0 (VRec [VStr "&lt;"; VStr "x"]))));
    ("C44", match get_type (tyA_ "Option" (tyA_ "Vec" (ty_ "u8"))) with MOk (KOpt (KVec (KSimple (SInt U8)))) => true | _ => false end);
    ("C44", match get_type (tyA_ "Vec" (ty_ "String")), get_type (ty_ "Stringy"), get_type (ty_ "i64") with MOk (KVec (KSimple SString)), MOk (KUser _), MOk (KSimple (SInt I64)) => true | _, _, _ => false end);
    ("C45", mok_ (derive_de (one_ [] (ty_ "u8"))) && mok_ (derive_ser (one_ [] (tyA_ "Vec" (ty_ "T")))) && negb (mok_ (derive_de (one_ [] (tyA_ "Vec" (tyA_ "Vec" (ty_ "u8")))))) && negb (mok_ (derive_ser (one_ [] (tyA_ "Vec" (tyA_ "Vec" (ty_ "u8")))))));
    ("C45", negb (mok_ (derive_de (RItem "U" [] RUnion))) && negb (mok_ (derive_ser (RItem "U" [] RUnion))));
    ("C46", match visitor_for (fun s => s) (a_attr ya0) "n" (KOpt (KUser [("N", None)])), visitor_for (fun s => s) ya0 "n" (KSimple SBool) with Some a, Some b => negb (String.eqb a b) | _, _ => false end);
    ("C47", refuses Ep 0 (pdoc "" "<zz>q</zz>") && reads Ep 0 (pdoc "" (pname +++ "<zz>q</zz>")) (p_val [] (VOpt None)));
    ("C49", match to_string_content (ser x0 Ep) 0 pv with SOk t => String.eqb t "<name>Ann</name><tag>x</tag><tag>y</tag><page><number>40</number><text>hi</text></page>" | _ => false end);
    ("C50", match to_string_with_config x0 Ep (Config false true None) 0 pv, to_string_with_config x0 Ep (Config false false None) 0 pv with SOk a, SOk b => String.eqb a (decl +++ b) && both Ep 0 a b | _, _ => false end);
    ("C50", match to_string_with_config x0 Ep (Config true true None) 0 pv, to_string_with_config x0 Ep (Config true false None) 0 pv with SOk a, SOk b => String.eqb a (decl +++ String "010" b) && both Ep 0 a b | _, _ => false end);
    ("C51", fails [page_] 0 "<Page><number>x</number><text>t</text></Page>" "number is a required field of Page" && refuses Ep 0 "<Person id='7'><name>Ann</name>");
    ("C53", reads [struct_ "L" ya0 [fld "i" (tuser 1); fld "j" (tuser 1)]; page_] 0 "<L><i><number>1</number><text>a</text></i><j><number>2</number><text>b</text></j></L>" (VRec [VRec [VInt 1; VStr "a"]; VRec [VInt 2; VStr "b"]]));
    ("C05", match fst (run (read_inner_value (Ret 5%nat)) (DState 1 (Stream [EChars "x"; EEnd (nm' "a")] FEnd) None)) with OErr _ => true | _ => false end);
    ("C08", num_bad U8 "-0" && num_bad U8 ":" && num_bad I8 "1:" && num_bad I8 "/");
    ("C09", refuses bools 0 "<S><b>TRUE</b></S>" && refuses bools 0 "<S><b>yes</b></S>");
    ("C13", same Ep 0 pfull (pdoc "" (pname +++ "<tag>x</tag><tag>y</tag>" +++ ppage +++ "<name xmlns='u'>Eve</name><zz/>")));
    ("C13", same Ep 0 pfull (pdoc "" (pname +++ "<tag>x</tag><tag>y</tag>" +++ ppage +++ "<zz>t<name>Eve</name></zz>")));
    ("C14", same Ep 0 pfull (pdoc "" (pname +++ "<tag>x</tag><tag>y</tag>" +++ ppage +++ "<id>8</id>")));
    ("C15", same [book_ns] 0 book_ns_txt "<book xmlns:q='u1' xmlns:r='u2'><q:author>A</q:author><r:title>T</r:title></book>");
    ("C19", reads [struct_ "N" ya0 [fld "N" (TOpt (BUser 0)); fld "v" (tint I32)]] 0 "<N><N><v>1</v></N><v>2</v></N>" (VRec [VOpt (Some (VRec [VOpt None; VInt 1])); VInt 2]));
    ("C22", writes [vecattr] 0 (VRec [VVec [VInt 1]]) "<S />");
    ("C23", writes [struct_ "S" ya0 [fldA "k" (a_attr (a_skip_if "always" ya0)) tstr; fldA "h" (a_attr (a_skip ya0)) tstr]] 0 (VRec [VStr "a"; VStr "b"]) "<S h=""b"" />" ||
            writes [struct_ "S" ya0 [fldA "k" (a_attr (a_skip_if "always" ya0)) tstr; fldA "h" (a_attr (a_skip ya0)) tstr]] 0 (VRec [VStr "a"; VStr "b"]) "<S k=""a"" h=""b"" />");
    ("C28", trips [str1] 0 (VRec [VStr (String "010" "a b"); VStr "x"]) && trips [str1] 0 (VRec [VStr (String "a" (String "013" (String "010" ""))); VStr "x"]));
    ("C30", reads [holder (tuser 1); enum_ "K" ya0 [vunit "A"; Variant "B" ya0 (VbNamed [fld "x" tstr])] (VVar 0 [])] 0 "<S><f><B><x>q</x></B></f></S>" (VRec [VVar 0 []]));
    ("C33", trips [TypeDef "B" ya0 (DPrim (PInner SBool))] 0 (VBool true) && trips [TypeDef "H" ya0 (DPrim (PHex U8 15))] 0 (VInt 9) && refuses [TypeDef "H" ya0 (DPrim (PHex U8 15))] 0 "<H>16</H>");
    ("C34", reads [struct_ "S" ya0 [fld "a" (tint I32); fldA "f" (a_flatten ya0) (tuser 1)]; struct_ "F" ya0 [fldA "t" (a_text ya0) tstr; fld "b" (tint I32)]] 0 "<S>hi<a>1</a><b>2</b></S>" (VRec [VInt 1; VRec [VStr "hi"; VInt 2]]));
    ("C36", match to_string x0 [cdata_t] 0 (VRec [VStr "<p>"]) with SOk s => existsb (fun k => String.prefix "<![CDATA[<p>]]>" (String.substring k 100 s)) (List.seq 0 (String.length s)) | _ => false end);
    ("C39", reads Ep 0 (pdoc "" ("hello " +++ pname +++ " you")) (VRec [VInt 7; VStr "Ann"; VVec []; VOpt None; VOpt None; VOpt (Some (VStr "you")); VStr "my_default_value"]));
    ("C39", reads [struct_ "S" ya0 [fldA "a" (a_text ya0) tstr; fld "b" tstr]] 0 "<S>one<b>x</b>two</S>" (VRec [VStr "two"; VStr "x"]));
    ("C48", match rd Ep 0 pfull with OOk v => trips Ep 0 v | _ => false end);
    ("C52", forallb (fun k => let s := String.substring 0 k (pfull +++ "<!-- z -->") in refuses Ep 0 s || both Ep 0 s pfull) (List.seq 0 (String.length pfull + 10)));
    ("C55", same Ep 0 pfull "<?xml version='1.0'?><!-- n --><?xml-stylesheet href='a'?><!DOCTYPE Person><Person id = ""&#55;"" ><?p d?><name >A<![CDATA[n]]>&#x6E;</name ><tag>x<!-- c --></tag><tag> y </tag><page><number>4<![CDATA[0]]></number><text>&#104;i</text></page></Person > ");
    ("C55", negb (accepts Ep 0 (pdoc "" "<name>a&b;</name>")) && negb (accepts Ep 0 (pdoc "" "<name>a<!-- -- --></name>")) && negb (accepts Ep 0 (pdoc " id='8'" pname)) && negb (accepts Ep 0 (pdoc "" "<q:name>a</q:name>")));
    ("C55", forallb (fun a => refuses [struct_ "S" ya0 []] 0 ("<S" +++ a +++ "></S>"))
              [" xmlns:a:b='u'"; " :k='1'"; " k:='1'"; " xmlns:xmlns='u'"; " xmlns:xml='u'"; " xmlns:p=''"; " xmlns='xmlns'"; " k='1' k='1'"; " p:k='1'"]
            && reads [struct_ "S" ya0 []] 0 "<S xmlns='' xmlns:xml='http://www.w3.org/XML/1998/namespace' xml:k='1' k='2'></S>" (VRec []));
    ("C56", match to_string_with_config x0 Ep (Config true true None) 0 pv with SOk s => match s_fin (parse_text s) with FEnd => true | _ => false end | _ => false end);
    ("C54", reads [holder (TOpt (BSimple (SInt I32)))] 0 "<S><f>5</f></S>" (VRec [VOpt (Some (VInt 5))]) && reads [holder (tint I32)] 0 "<S><f>5</f></S>" (VRec [VInt 5]));
    ("C57", let t1 := struct_ "S" ya0 [fld "a" (tint I32); fldA "k" (a_attr ya0) (tint I32); fld "b" (TVec (BSimple SString)); fldA "t" (a_text ya0) tstr] in
            let t2 := struct_ "S" ya0 [fldA "t" (a_text ya0) tstr; fld "b" (TVec (BSimple SString)); fld "n" (TOpt (BSimple SString)); fldA "k" (a_attr ya0) (tint I32); fld "a" (tint I32)] in
            let s := "<S k='1'><b>x</b><a>2</a><b>y</b>z</S>" in
            reads [t1] 0 s (VRec [VInt 2; VInt 1; VVec [VStr "x"; VStr "y"]; VStr "z"]) &&
            reads [t2] 0 s (VRec [VStr "z"; VVec [VStr "x"; VStr "y"]; VOpt None; VInt 1; VInt 2]));
    ("C57", let a := fldA "addr" (a_flatten ya0) (tuser 1) in let c := fldA "code" (a_attr ya0) (tuser 2) in let b := fldA "body" (a_text ya0) tstr in
            let i := fld "item" (TVec (BSimple SString)) in let o := fld "o" (TOpt (BSimple SString)) in let t := fld "street" tstr in
            let s := "<Order code='c1'><street>S</street><item>A</item><x/><item>B</item></Order>" in
            reads [struct_ "Order" ya0 [c; i; a]; struct_ "Addr" ya0 [t]; struct_ "Code" ya0 [b]] 0 s
              (VRec [VRec [VStr "c1"]; VVec [VStr "A"; VStr "B"]; VRec [VStr "S"]]) &&
            reads [struct_ "Order" ya0 [a; o; i; c]; struct_ "Addr" ya0 [fld "p" (TVec (BUser 2)); t]; struct_ "Code" ya0 [fldA "l" (a_attr ya0) (TOpt (BSimple SString)); b]] 0 s
              (VRec [VRec [VVec []; VStr "S"]; VOpt None; VVec [VStr "A"; VStr "B"]; VRec [VOpt None; VStr "c1"]]));
    ("C58", let t := struct_ "T" (a_ns [("o", "u")] ya0) [fldA "k" (a_attr (a_prefix "o" ya0)) tstr; fldA "b" (a_prefix "o" ya0) tstr; fld "c" (TVec (BSimple (SInt I32)))] in
            writes [struct_ "S" ya0 [fldA "t" (a_flatten ya0) (tuser 1); fldA "l" (a_attr ya0) tstr; fld "d" tstr]; t] 0
              (VRec [VRec [VStr "1"; VStr "2"; VVec [VInt 3; VInt 4]]; VStr "5"; VStr "6"])
              "<S xmlns:o=""u"" l=""5"" o:k=""1""><o:b>2</o:b><c>3</c><c>4</c><d>6</d></S>" &&
            writes [struct_ "S" (a_ns [("o", "u")] ya0) [fldA "k" (a_attr (a_prefix "o" ya0)) tstr; fldA "b" (a_prefix "o" ya0) tstr; fld "c" (TVec (BSimple (SInt I32))); fldA "l" (a_attr ya0) tstr; fld "d" tstr]; t] 0
              (VRec [VStr "1"; VStr "2"; VVec [VInt 3; VInt 4]; VStr "5"; VStr "6"])
              "<S xmlns:o=""u"" o:k=""1"" l=""5""><o:b>2</o:b><c>3</c><c>4</c><d>6</d></S>");
    ("C59", let u := struct_ "U" ya0 [fldA "y" (a_attr ya0) tstr; fld "e" (TOpt (BSimple SString))] in
            let d := fldA "d" (a_prefix "o" ya0) (tint U8) in let i := fld "items" (TVec (BUser 3)) in
            let o := a_ns [("o", "u")] ya0 in
            let s := "<S x='1' y='q' xmlns:o='u'><o:d>2</o:d><items y='r'><e>t</e></items><c>z</c><e>w</e><items y='s'/></S>" in
            reads [struct_ "S" ya0 [fldA "x" (a_attr ya0) (tint U8); fldA "f" (a_flatten ya0) (tuser 1); fld "c" tstr]; struct_ "T" o [d; fldA "g" (a_flatten ya0) (tuser 2); i]; u;
                   struct_ "W" ya0 [fldA "h" (a_flatten ya0) (tuser 2)]] 0 s
              (VRec [VInt 1; VRec [VInt 2; VRec [VStr "q"; VOpt (Some (VStr "w"))];
                VVec [VRec [VRec [VStr "r"; VOpt (Some (VStr "t"))]]; VRec [VRec [VStr "s"; VOpt None]]]]; VStr "z"]) &&
            reads [struct_ "S" o [fldA "x" (a_attr ya0) (tint U8); d; fldA "y" (a_attr ya0) tstr; fld "e" (TOpt (BSimple SString)); i; fld "c" tstr]; u; u;
                   struct_ "W" ya0 [fldA "y" (a_attr ya0) tstr; fld "e" (TOpt (BSimple SString))]] 0 s
              (VRec [VInt 1; VInt 2; VStr "q"; VOpt (Some (VStr "w")); VVec [VRec [VStr "r"; VOpt (Some (VStr "t"))]; VRec [VStr "s"; VOpt None]]; VStr "z"]));
    ("C60", let s := "<S k='1'><a>2</a></S>" in let v := VRec [VInt 1; VInt 2; VVar 0 []] in
            let en n d := enum_ n (a_rename "F" ya0) [Variant d (a_rename "A" ya0) VbUnit] (VVar 0 []) in
            reads [struct_ "S" ya0 [fldA "k" (a_attr ya0) (tint U8); fld "a" (tint U8); fldA "e" (a_flatten ya0) (tuser 1)]; en "E" "A"] 0 s v &&
            reads [struct_ "X" (a_rename "S" (a_dns "p" ya0)) [fldA "l" (a_attr (a_rename "k" (a_skip ya0))) (tint U8); fldA "b" (a_rename "a" (a_skip_if "always" ya0)) (tint U8);
                     fldA "g" (a_flatten (a_skip ya0)) (tuser 1)]; en "F" "B"] 0 s v);
    ("C61", let v := VRec [VInt 1; VInt 2; VVar 0 []] in let t := "<S k=""1""><a>2</a><e>A</e></S>" in
            writes [struct_ "S" ya0 [fldA "k" (a_attr ya0) (tint U8); fld "a" (tint U8); fld "e" (tuser 1)]; enum_ "E" ya0 [vunit "A"] (VVar 0 [])] 0 v t &&
            writes [struct_ "X" (a_rename "S" ya0) [fldA "l" (a_attr (a_rename "k" ya0)) (tint U8); fldA "b" (a_rename "a" ya0) (tint U8); fldA "h" (a_rename "e" ya0) (tuser 1)];
                    enum_ "F" (a_rename "E" ya0) [Variant "B" (a_rename "A" ya0) VbUnit] (VVar 5 [])] 0 v t);
    ("C62", let e := [struct_ "S" ya0 [fldA "k" (a_attr ya0) (tint U8); fldA "b" (a_rename "c" ya0) (TVec (BUser 1)); fldA "p" (a_flatten ya0) (tuser 2); fld "n" (TOpt (BSimple SString))];
                      struct_ "B" ya0 [fld "t" tstr; fld "e" (tuser 3)]; struct_ "P" ya0 [fld "r" tstr];
                      enum_ "K" ya0 [vunit "N"; vnew "O" (TBase (BSimple SString))] (VVar 0 [])] in
            writes e 0 (VRec [VInt 7; VVec [VRec [VStr "A"; VVar 0 []]; VRec [VStr "B"; VVar 1 [VStr "x"]]]; VRec [VStr "r"]; VOpt None])
              "<S k=""7""><c><t>A</t><e>N</e></c><c><t>B</t><e><O>x</O></e></c><r>r</r></S>");
    ("C63", let e := [struct_ "S" ya0 [fldA "k" (a_attr ya0) (tint U8); fldA "b" (a_rename "c" ya0) (TVec (BUser 1)); fldA "p" (a_flatten ya0) (tuser 2); fld "n" (TOpt (BSimple SString))];
                      struct_ "B" ya0 [fld "t" tstr; fld "e" (tuser 3)]; struct_ "P" ya0 [fld "r" tstr];
                      enum_ "K" ya0 [vunit "N"; vnew "O" (TBase (BSimple SString))] (VVar 0 [])] in
            reads e 0 "<S k='7'><c><e>N</e><y>1</y><t>A</t></c><r>r</r><c><t>B</t><e><O>x</O></e></c></S>"
              (VRec [VInt 7; VVec [VRec [VStr "A"; VVar 0 []]; VRec [VStr "B"; VVar 1 [VStr "x"]]]; VRec [VStr "r"]; VOpt None]));
    ("C64", let n i k := struct_ "N" ya0 [fldA "k" (a_attr ya0) (tuser k); fldA "s" (a_rename "N" ya0) (TVec (BUser i))] in
            let k := enum_ "K" ya0 [vunit "A"; vunit "B"] (VVar 0 []) in
            let t := "<N k=""B""><N k=""A""></N><N k=""B""><N k=""A""></N></N></N>" in
            let v := VRec [VVar 1 []; VVec [VRec [VVar 0 []; VVec []]; VRec [VVar 1 []; VVec [VRec [VVar 0 []; VVec []]]]]] in
            reads [n 0%nat 1%nat; k] 0 t v && reads [struct_ "O" ya0 []; k; n 4%nat 1%nat; struct_ "N" ya0 []; n 2%nat 1%nat] 2 t v);
    ("C65", let s := "<Person mail='m' id='7'><home><town>T</town><street>S</street></home><home><town>T2</town><street>S2</street></home><name>N</name><phone>12</phone></Person>" in
            let i := fldA "id" (a_attr ya0) (tint U8) in let n := fld "name" tstr in let h := fld "home" (TVec (BUser 1)) in let t := fld "street" tstr in
            reads [struct_ "Person" ya0 [h; fldA "mail" (a_attr ya0) tstr; n; fld "phone" (TVec (BUser 2)); i]; struct_ "Home" ya0 [fld "town" tstr; t];
                   struct_ "Phone" ya0 [fldA "n" (a_text ya0) tstr]] 0 s
              (VRec [VVec [VRec [VStr "T"; VStr "S"]; VRec [VStr "T2"; VStr "S2"]]; VStr "m"; VStr "N"; VVec [VRec [VStr "12"]]; VInt 7]) &&
            reads [struct_ "Person" ya0 [i; n; h]; struct_ "Home" ya0 [t]] 0 s (VRec [VInt 7; VStr "N"; VVec [VRec [VStr "S"]; VRec [VStr "S2"]]]));
    ("C66", let r := fldA "room" (a_attr ya0) (tint U8) in let b := fld "book" (TVec (BUser 1)) in
            let t := fld "title" tstr in let y := fldA "year" (a_attr ya0) (TOpt (BSimple (SInt U16))) in
            let s := "<Shelf room=""3""><book year=""1984""><title>A</title></book><book><title>B</title></book></Shelf>" in
            writes [struct_ "Shelf" ya0 [r; b]; struct_ "Book" ya0 [t; y]] 0
              (VRec [VInt 3; VVec [VRec [VStr "A"; VOpt (Some (VInt 1984))]; VRec [VStr "B"; VOpt None]]]) s &&
            writes [struct_ "Shelf" ya0 [r; fld "owner" (TVec (BSimple SString)); b];
                    struct_ "Book" ya0 [fldA "lang" (a_attr (a_default "default_string" ya0)) tstr; t; fld "note" (TOpt (BUser 0)); y;
                                        fldA "kind" (a_default "default_string" ya0) tstr; fldA "n" (a_attr ya0) (TOpt (BSimple SString))]] 0
              (let d := VStr "my_default_value" in
               VRec [VInt 3; VVec []; VVec [VRec [d; VStr "A"; VOpt None; VOpt (Some (VInt 1984)); d; VOpt None]; VRec [d; VStr "B"; VOpt None; VOpt None; d; VOpt None]]]) s);
    ("C45", let d g := [RAttr "yaserde" (MetaList (Ok (a_default g ya0)))] in
            forallb (fun g => mok_ (derive_de (one_ (d g) (ty_ "u8")))) ["a"; "z"; "A"; "Z"; "_"; "a0"; "a9"; "f_Z"]%string &&
            forallb (fun g => negb (mok_ (derive_de (one_ (d g) (ty_ "u8"))))) [""; "0"; "9a"; "a b"; "m::f"; "a-"; "@"; "["; "`"; "{"; "a@"; "a["; "a`"; "a{"; "a/"; "a:"]%string);
    ("C67", let i := RItem "R" [RAttr "doc" MetaNameValue; RAttr "yaserde" (MetaList (Ok (a_rename "r" ya0))); RAttr "yaserde" (MetaList (Ok ya0))]
                       (RStruct (RNamed [RField (Some "x") [RAttr "yaserde" (MetaList (Ok (a_attr ya0)))] (tyA_ "Option" (ty_ "bool"));
                                         RField (Some "y") [] (RGroup (tyA_ "Vec" (ty_ "T")))])) in
            match lower_item (fun _ => Some 3%nat) (VRec []) i with
            | Some (TypeDef "R" a (DStruct [Field "x" b (TOpt (BSimple SBool)); Field "y" _ (TVec (BUser 3))])) =>
                ya_attribute b && match ya_rename a with Some "r"%string => true | _ => false end
            | _ => false
            end);
    ("C68", let w := fun s : string => OTok (Er "") (Ok s) (Er "") (Ok tt) in let yes := OTok (Ok true) (Er "") (Er "") (Ok tt) in
            let d := OTok (Er "") (Er "") (Ok [("q", "v"); ("b", "u"); ("q", "w")]) (Ok tt) in
            let opt o t := match o with Some s => String.eqb s t | None => false end in
            match read_options [("prefix", w "q"); ("rename", w "r"); ("skip_serializing", yes); ("namespaces", d); ("default", w "f"); ("attribute", yes)],
                  read_options [("tag", w "t"); ("flatten", yes); ("cdata", yes); ("x", w "y"); ("text", yes); ("skip_serializing_if", w "g"); ("default_namespace", w "n")],
                  read_options [("text", yes); ("tag", w "t"); ("text", yes)], read_options [("text", w "t")] with
            | Ok (YAttr true d1 None false [("b", "u"); ("q", "w")] p r None true None false false),
              Ok (YAttr false None n true [] None None t false g true true), Er _, Er _ =>
                opt d1 "f" && opt p "q" && opt r "r" && opt n "n" && opt t "t" && opt g "g"
            | _, _, _, _ => false
            end%string);
    ("C69", let E69 := [struct_ "a" (a_prefix "p" (a_ns [("p", "u")] ya0)) [fldA "b" (a_attr ya0) tstr; fldA "c" (a_prefix "p" ya0) (tuser 1); fld "d" (tuser 2)];
                        struct_ "c" (a_ns [("p", "u"); ("q", "w")] ya0) [fld "e" (TVec (BUser 3)); fld "f" tstr];
                        struct_ "d" ya0 [fldA "g" (a_text ya0) tstr; fld "h" tstr];
                        struct_ "e" ya0 [fldA "i" (a_attr ya0) (TOpt (BSimple SString))]] in
            let V69 := VRec [VStr "1""<"; VRec [VVec [VRec [VOpt None]; VRec [VOpt (Some (VStr "x"))]]; VStr "a&b'"]; VRec [VStr "t"; VStr ""]] in
            match to_string_with_config x0 E69 (Config true true (Some "    ")) 0 V69, to_string_with_config x0 E69 (Config true false None) 0 V69 with
            | SOk s, SOk t => String.eqb s "<?xml version=""1.0"" encoding=""utf-8""?>
<p:a xmlns:p=""u"" b=""1&quot;&lt;"">
    <p:c xmlns:q=""w"">
        <e />
        <e i=""x"" />
        <f>a&amp;b'</f>
    </p:c>
    <d>t<h></h></d>
</p:a>" && String.prefix "<p:a xmlns:p=""u"" b=""1&quot;&lt;"">
  <p:c " t
            | _, _ => false
            end%string);
    ("C70", let E := [struct_ "Date" ya0 [fldA "year" (a_rename "Year" ya0) (tint I32); fldA "month" (a_rename "Month" ya0) (tint I32);
                                          fldA "day" (a_rename "Day" ya0) (tuser 1)];
                      struct_ "Day" ya0 [];
                      enum_ "When" ya0 [vnew "Day" (TBase (BUser 1)); vnew "Year" (tint I32)] (VVar 1 [VInt 0])] in
            let day : prog value := Next (fun _ => Peek (fun r => match r with Ok (EChars t) => Ret (VStr t) | _ => Throw "day" end)) in
            let whole : prog value := Next (fun _ => Next (fun r => match r with Ok (EChars t) => Ret (VStr t) | _ => Throw "day" end)) in
            let read p id s := fst (run (de_body x0 E (fun _ => p) 20 id) (d_init (parse_text s))) in
            let wr : value -> sm unit := fun v => match v with VRec [VInt z] => sbind (write (start_plain "Own")) (fun _ => sbind (write (WChars (show_Z z))) (fun _ => write (WEnd None))) | _ => sstuck end in
            oeq (read day 0%nat "<Date><Year>2020</Year><Day>11</Day><Month>01</Month></Date>") (OOk (VRec [VInt 2020; VInt 1; VStr "11"])) &&
            oeq (read whole 0%nat "<Date><Year>2020</Year><Day>11</Day><Month>01</Month></Date>") (OOk (VRec [VInt 2020; VInt 1; VStr "11"])) &&
            oeq (read day 0%nat "<Date><Year>2020</Year><Day></Day><Month>01</Month></Date>") (OErr "day") &&
            oeq (read day 2%nat "<When><Day>4</Day></When>") (OOk (VVar 0 [VStr "4"])) &&
            match ser_body x0 E (fun _ => wr) (fun _ _ => SOk ([], [])) 0%nat (VRec [VInt 2020; VInt 1; VRec [VInt 5]]) (fun _ => false) w_init with
            | (SOk _, w) => String.eqb (emit_text (EConf false None) (w_evs w)) "<Date><Year>2020</Year><Month>1</Month><Own>5</Own></Date>"
            | _ => false
            end);
    ("C71", let E := [struct_ "a" ya0 [fld "b" (tuser 1); fldA "c" (a_attr ya0) (tuser 1); fld "d" (TVec (BUser 1))]] in
            let wr : value -> sm unit := fun v => match v with VInt z => swallow (write (WChars (show_Z z))) | _ => sstuck end in
            match ser_body x0 E (fun _ => wr) (fun _ _ => SOk ([], [])) 0%nat (VRec [VInt 12; VInt 3; VVec [VInt 4; VInt 5]]) (fun _ => false) w_init with
            | (SOk _, w) => String.eqb (emit_text (EConf false None) (w_evs w)) "<a c=""3"">1245</a>"
            | _ => false
            end);
    ("C72", let E := [struct_ "Page" (a_rename "página" ya0) [fldA "lang" (a_attr ya0) tstr; fldA "rest" (a_flatten ya0) (tuser 1); fld "price" tstr];
                      struct_ "Rest" ya0 [fldA "note" (a_rename "título" ya0) tstr]] in
            let v := VRec [VStr "ñ€"; VRec [VStr "été 😀 <"]; VStr "5 €"] in
            let t := "<página lang=""ñ€""><título>été &#x1F600; &lt;</título><price>5 &#8364;</price></página>" in
            oeq (from_str_checked x0 E 60 0%nat t) (OOk v) &&
            match expect_utf8 (to_string x0 E 0%nat v) with OOk s => oeq (from_str_checked x0 E 60 0%nat s) (OOk v) | _ => false end &&
            forallb (fun n => from_utf8 (utf8 n)) [0; 127; 128; 2047; 2048; 4095; 4096; 55295; 57344; 65535; 65536; 262143; 1048575; 1048576; 1114111]%N &&
            negb (existsb (fun l => from_utf8 (fold_right String "" (map ascii_of_N l)))
              [[128]; [192; 128]; [193; 191]; [224; 159; 191]; [237; 160; 128]; [244; 144; 128; 128]; [240; 143; 191; 191]; [226; 130]; [245; 128; 128; 128]; [195; 40]]%N));
    ("C73", let E := [struct_ "Page" ya0 [fldA "rest" (a_flatten ya0) (tuser 1); fld "price" tstr]; struct_ "Rest" ya0 [fld "note" tstr]] in
            let doc t := ("<Page><note>" +++ t +++ "</note><price>5 €</price></Page>")%string in
            let bytes l := fold_right String "" (map ascii_of_N l) in
            forallb (fun t => oeq (from_bytes_checked x0 E 60 0%nat (doc t) "bad") (OOk (VRec [VRec [VStr t]; VStr "5 €"]))) ["a"; "é"; "€"; "😀"; utf8 1114111] &&
            forallb (fun l => oeq (from_bytes_checked x0 E 60 0%nat (doc (bytes l)) "bad") (OErr "bad"))
              [[128]; [192; 128]; [224; 159; 191]; [237; 160; 128]; [244; 144; 128; 128]; [226; 130]; [245; 128; 128; 128]; [195; 40]]%N &&
            oeq (from_bytes_checked x0 E 60 0%nat (doc "é" +++ bytes [195]%N) "bad") (OOk (VRec [VRec [VStr "é"]; VStr "5 €"])));
    ("C74", let E := [enum_ "N" ya0 [vnew "A" (TVec (BSimple (SInt I32)))] (VVar 0 [VVec []])] in
            let v := VVar 0 [VVec [VInt 123456; VInt 7]] in
            let c := Config false false None in
            match ser_events x0 E 0%nat v, to_string_with_config x0 E c 0%nat v with
            | SOk l, SOk t =>
                forallb (fun n =>
                  let sched k := Nat.ltb n (String.length (emit_text (econf_of c) (firstn (S k) l))) in
                  match ser x0 E 0%nat v sched w_init with
                  | (SOk _, w) => (Nat.leb (String.length t) n && Nat.eqb (List.length (w_evs w)) (List.length l))%bool
                  | (SErr _, w) => (Nat.ltb n (String.length t) && Nat.leb (String.length (emit_text (econf_of c) (w_evs w))) n)%bool
                  | _ => false
                  end) (List.seq 0%nat 32%nat)
            | _, _ => false
            end);
    ("C75", let E := [struct_ "Part" ya0 [fld "n" (tint I32)]; struct_ "Outer" ya0 [fld "part" (tuser 0%nat)]] in
            let jobs := [(1%nat, VRec [VRec [VInt 1]]); (0%nat, VRec [VInt 2]); (1%nat, VRec [VRec [VInt 3]])] in
            let all := smap (fun p => set_name None ;;; set_skip false ;;; ser x0 E (fst p) (snd p)) jobs in
            match all (fun _ => false) w_init with
            | (SOk _, w) => (emit_text (econf_of (Config false false None)) (w_evs w) =?
                "<Outer><part><n>1</n></part></Outer><Part><n>2</n></Part><Outer><part><n>3</n></part></Outer>")%string
            | _ => false
            end);
    ("C76", forallb (fun t => match s_fin (parse_text t) with FErr _ => true | FEnd => false end)
              ["<a k='1' k='2'/>"; "<p:a/>"; "<a p:k='1'/>"; "<a><b xmlns:p='u'/><p:c/></a>"; "<a></b>"; "<a/>x"; "<a>"; "<a><b></a></b>";
               "<a xmlns:p='u' p:k='1' p:k='2'/>"; "x<a/>"; "<a/><!DOCTYPE a>"; "<a><!x></a>"; "<a><?xml version='1.0'?></a>"; "<a><b xmlns:p='u'></b><c p:k='1'/></a>"]%string &&
            forallb (fun t => match s_fin (parse_text t) with FEnd => true | FErr _ => false end)
              ["<a xmlns='u' xmlns:p='v'><p:b xmlns:p='w' xmlns='' p:k='1' k='2'><c xml:lang='en'/></p:b><p:b/></a>"]%string &&
            negb (existsb (fun e => match e with EStart n _ m => negb (match n_prefix n with
                     | Some p => match ns_get m p, n_ns n with Some u, Some v => String.eqb u v | _, _ => false end
                     | None => match n_ns n with Some u => match ns_get m "" with Some v => String.eqb u v | None => false end | None => true end
                     end) | _ => false end)
              (s_evs (parse_text "<a xmlns='u' xmlns:p='v'><p:b xmlns:p='w' xmlns=''><c/></p:b><p:b/></a>"))));
    ("C77", let E := [struct_ "P" ya0 [fld "x" (tint I32)];
                      enum_ "C" ya0 [Variant "Red" ya0 VbUnit; Variant "Blue" ya0 VbUnit] (VVar 0%nat [])] in
            let leave := fix leave (fl d : nat) : prog unit :=
              match fl with
              | O => Stuck
              | S fl' => let* _ := next_ in Depth (fun d' => if Nat.eqb d' d then Ret tt else leave fl' d)
              end in
            let one id := Depth (fun d => let* v := de x0 E 40%nat id in let* _ := leave 20%nat d in Ret v) in
            match fst (run (let* _ := next_ in let* u := one 0%nat in let* v := one 1%nat in let* w := one 0%nat in Ret (VVec [u; v; w]))
                      (d_init (parse_text "<l><p><y><x>0</x></y><x>1</x></p><c>Blue</c><p><x>2</x></p></l>"))) with
            | OOk v => veq v (VVec [VRec [VInt 1]; VVar 1%nat []; VRec [VInt 2]])
            | _ => false
            end);
    ("C78", let E := [struct_ "P" ya0 [fldA "k" (a_attr ya0) tstr; fld "x" (tint I32)]] in
            let leave := fix leave (fl d : nat) : prog unit :=
              match fl with
              | O => Stuck
              | S fl' => let* _ := next_ in Depth (fun d' => if Nat.eqb d' d then Ret tt else leave fl' d)
              end in
            let one := Depth (fun d => let* v := de x0 E 40%nat 0%nat in let* _ := leave 20%nat d in Ret v) in
            let text c v := match to_string_with_config x0 E c 0%nat v with SOk s => s | _ => ""%string end in
            let u := VRec [VStr "a"; VInt 1] in let w := VRec [VStr "b<"; VInt (-2)] in
            let read s := fst (run (let* u := one in let* v := one in Ret (VVec [u; v])) (d_init (parse_text s))) in
            match read (text (Config true false None) u +++ "<!-- n --><?p q?>" +++ text (Config false false None) w)%string with
            | OOk v => veq v (VVec [u; w])
            | _ => false
            end &&
            match s_fin (parse_text (text config0 u +++ text config0 w)%string) with FErr _ => true | FEnd => false end);
    ("C79", forallb (fun t => match parse_text t with
                              | Stream evs (FErr _) => Nat.eqb (List.length (filter (fun e => match e with EStart _ _ _ | EEnd _ => true | _ => false end) evs)) 4
                              | _ => false end)
              ["<a><b/></a><?xml version='1.0'?><a/>"; "<?xml version='1.0'?><!DOCTYPE a><a/><!-- --><b/><!DOCTYPE a>"]%string)
 ].

Definition violated : list string := map fst (filter (fun p => negb (snd p)) battery).
Example battery_holds : violated = [].
Proof. vm_compute. reflexivity. Qed.
