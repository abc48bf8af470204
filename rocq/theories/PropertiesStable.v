(** * C48: reading, writing and reading again.

    Vocabulary: SpecStable.v ([durable], [shows_back], [tab_free]) and
    SpecRound.v ([supported], [rootable]). *)
From Verif Require Import Str Num Xml XmlText Reader Schema De Ser Conform SpecTree SpecText SpecNum NumProofs SpecTyped SpecStruct SpecSer
  SpecValue SpecRound SpecOut SpecStable RoundTexts RoundText RoundCheck StableProofs StableCheck PropertiesRound.
Open Scope list_scope.

(** Nothing is asked of the text: every value that is read from it can be
    written, and is read again from what was written.  Missing: types that
    are not [durable] and values with tabs. *)
Theorem C48_stable_partial :
  forall x E c fuel id s v, supported E -> rootable E id -> serializable E -> user_code_typed E x ->
    shows_back x -> durable x E -> tab_free v -> white_indent c -> from_str x E fuel id s = OOk v ->
    exists t, to_string_with_config x E c id v = SOk t /\
    exists N, forall fuel', N <= fuel' -> from_str x E fuel' id t = OOk v.
Proof. exact stable. Qed.
Print Assumptions C48_stable_partial.

(** The reader only returns values that survive. *)
Theorem C48_survives_partial :
  forall x E fuel id s v, shows_back x -> durable x E -> tab_free v -> from_str x E fuel id s = OOk v ->
    Survives x E false id v.
Proof. exact read_survives. Qed.
Print Assumptions C48_survives_partial.

(** A unit enum in an attribute, a default, an optional newtype, a text, a list
    of enums with payloads; the document has unknown elements, comments,
    references, a repeated scalar and white space. *)
Definition E_shop :=
  [struct_ "Shop" (a_rename "shop" ya0)
     [fldA "kind" (a_attr ya0) (tuser 1); fldA "lang" (a_default "default_string" (a_attr ya0)) tstr;
      fldA "no" ya0 (tint U16); fld "code" (TOpt (BUser 2)); fldA "note" (a_text ya0) (TOpt (BSimple SString));
      fld "entry" (TVec (BUser 3))];
   enum_ "Kind" ya0 [vunit "Big"; vunit "Small"] (VVar 1 []);
   TypeDef "Code" ya0 (DPrim (PInner SString));
   enum_ "Entry" ya0 [vunit "Gap"; vnew "Num" (TVec (BSimple (SInt I8))); vnew "Item" (tuser 4)] (VVar 0 []);
   struct_ "Item" ya0 [fld "name" tstr; fld "price" (tint I32)]].
Lemma x0_shows_back : shows_back x0.
Proof.
  split; [intros d t z H; discriminate|]. intros tn t z H. cbn in *. split; [apply show_Z_token|].
  apply C08_lemma in H. apply C07_lemma. apply H.
Qed.
Ltac dura := apply (durableb_ok _ _ 10); vm_compute; reflexivity.
Ltac seri := apply serializableb_ok; vm_compute; reflexivity.
Ltac user := apply (user_code_typedb_ok _ _ 10); vm_compute; reflexivity.
Ltac tabs := apply tab_freeb_ok; vm_compute; reflexivity.

Definition shop_text :=
  "<any kind='Small'><no>7</no><!-- c --><x><no>9</no></x><entry>Gap</entry> a &lt; b
   <no>+08</no><entry><Num>1</Num><Num>-2</Num></entry><code>  A&amp;B </code>
   <entry><Item><price>5</price><name><![CDATA[<n>]]></name></Item></entry><entry>?</entry></any>".
Definition shop_value :=
  VRec [VVar 1 []; VStr "my_default_value"; VInt 8; VOpt (Some (VStr "A&B")); VOpt (Some (VStr "a < b"));
        VVec [VVar 0 []; VVar 1 [VVec [VInt 1; VInt (-2)]]; VVar 2 [VRec [VStr "<n>"; VInt 5]]; VVar 0 []]].
Example C48_case :
  supported E_shop /\ rootable E_shop 0 /\ serializable E_shop /\ user_code_typed E_shop x0 /\ shows_back x0 /\
  durable x0 E_shop /\ tab_free shop_value /\ from_str x0 E_shop 60 0 shop_text = OOk shop_value /\
  to_string x0 E_shop 0 shop_value = SOk (decl +++
    "<shop kind=""Small""><no>8</no><code>A&amp;B</code>a &lt; b<entry>Gap</entry><entry><Num>1</Num><Num>-2</Num></entry><entry><Item><name>&lt;n&gt;</name><price>5</price></Item></entry><entry>Gap</entry></shop>").
Proof.
  split; [supp|]. split; [root|]. split; [seri|]. split; [user|]. split; [exact x0_shows_back|]. split; [dura|]. split; [tabs|].
  split; vm_compute; reflexivity.
Qed.

Definition C48_full : Prop :=
  forall x E fuel id s v, supported E -> rootable E id -> serializable E -> user_code_typed E x -> shows_back x ->
    from_str x E fuel id s = OOk v ->
    exists t, to_string x E id v = SOk t /\ exists N, forall fuel', N <= fuel' -> from_str x E fuel' id t = OOk v.

Ltac unstable H E s v t o :=
  specialize (H x0 E fuel 0 s v ltac:(supp) ltac:(root) ltac:(seri) ltac:(user) x0_shows_back ltac:(vm_compute; reflexivity));
  destruct H as (t' & Ht & H); assert (t' = decl +++ t) as -> by (vm_compute in Ht; injection Ht as <-; reflexivity);
  apply (answers _ _ _ _ fuel o) in H; [discriminate|vm_compute; reflexivity|discriminate].

(** A tab in an attribute, given as a reference, is written as it is. *)
Theorem C48_tab_refuted : ~ C48_full.
Proof.
  intros H. pose (v := VRec [VOpt None; VStr (String "a" (String "009" "b"))]).
  unstable H [opt_tab] "<S a='a&#9;b'/>" v ("<S a=""" +++ String "a" (String "009" "b") +++ """ />")
    (OOk (VRec [VOpt None; VStr "a b"])).
Qed.
Print Assumptions C48_tab_refuted.
(** A cdata field whose text has the end mark. *)
Definition cd := struct_ "S" ya0 [fldA "c" (a_cdata ya0) tstr].
Theorem C48_cdata_refuted : ~ C48_full.
Proof.
  intros H. unstable H [cd] "<S><c>a]]&gt;b</c></S>" (VRec [VStr "a]]>b"]) "<S><c><![CDATA[a]]>b]]></c></S>"
    (OOk (VRec [VStr "ab]]>"])).
Qed.
Print Assumptions C48_cdata_refuted.
(** Lists in attributes are not written. *)
Definition lst := struct_ "S" ya0 [fldA "l" (a_attr ya0) (TVec (BSimple (SInt I32)))].
Theorem C48_list_refuted : ~ C48_full.
Proof.
  intros H. unstable H [lst] "<S l='1 2'/>" (VRec [VVec [VInt 1; VInt 2]]) "<S />" (OOk (VRec [VVec []])).
Qed.
Print Assumptions C48_list_refuted.
(** Bit flags. *)
Definition hex := [struct_ "S" ya0 [fld "h" (tuser 1)]; TypeDef "H" ya0 (DPrim (PHex U8 255))].
Theorem C48_hex_refuted : ~ C48_full.
Proof. intros H. unstable H hex "<S><h>16</h></S>" (VRec [VInt 16]) "<S><h>10</h></S>" (OOk (VRec [VInt 10])). Qed.
Print Assumptions C48_hex_refuted.
(** An attribute of a payload's struct. *)
Definition pay := [enum_ "N" ya0 [vnew "P" (tuser 1)] (VVar 0 [VRec [VInt 0]]); struct_ "P" ya0 [fldA "a" (a_attr ya0) (tint U8)]].
Theorem C48_payload_refuted : ~ C48_full.
Proof.
  intros H. unstable H pay "<N><P a='5'/></N>" (VVar 0 [VRec [VInt 5]]) "<N><P /></N>" (@OErr value "a is a required field of P").
Qed.
Print Assumptions C48_payload_refuted.
