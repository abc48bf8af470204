(** * Termination, panics and types of the results: C17, C18, C20.

    Vocabulary: SpecTerm.v, SpecSafe.v, SpecTyped.v.  [OFuel] is the outcome
    of a loop of the model that has not finished within [fuel] iterations. *)
From Verif Require Import Str Num Xml XmlText Reader Schema De Ser Conform SpecTree SpecText SpecValue SpecStruct
  SpecTyped TypedProofs SpecSafe SafeProofs SpecTerm TermProofs TermReads TextReads PropertiesStruct.
Open Scope list_scope.

(** ** C17: termination *)
Definition C17_full : Prop :=
  forall x E id s, exists fuel, from_str x E fuel id s <> OFuel.

(** Reading a [Book] from [<author>X</author>] never ends: the generated code
    peeks the end of the document for ever. *)
Theorem C17_refuted : ~ C17_full.
Proof. exact C17_refuted_lemma. Qed.
Print Assumptions C17_refuted.

(** Missing for the full claim: documents that do not conform, for types with
    elements of simple type (or flattened fields, or enum payloads) below the
    root. *)
Theorem C17_conforming_partial :
  forall x E k id d t, Conforms x E k id t -> exists o, o <> OFuel /\ Reads x E id d t o.
Proof. exact read_returns. Qed.
Print Assumptions C17_conforming_partial.

Example C17_conforming_case : Conforms x0 EP 0 0 (personT idA kidsP).
Proof. exact conforms_case. Qed.

(** Types without elements of simple type: every text. *)
Theorem C17_calm_types_partial :
  forall x E C id, calm E C -> C id ->
  forall s, exists N, forall fuel, N <= fuel -> from_str x E fuel id s <> OFuel.
Proof. exact C17_calm_text. Qed.
Print Assumptions C17_calm_types_partial.

(** A struct at the root that may have elements of simple type as well: every
    text whose root element is not named like one of those fields, or is named
    like the struct. *)
Theorem C17_root_partial :
  forall x E C id td fs, calm E C -> struct_type E id td fs -> calm_root C fs ->
  forall s,
    (forall n f, root_named (parse_text s) n -> In f fs -> elem_field f -> (exists t, base_of (f_ty f) = BSimple t) ->
       flabel (t_attrs td) f <> elabel n \/ root_label td = elabel n) ->
  exists N, forall fuel, N <= fuel -> from_str x E fuel id s <> OFuel.
Proof. exact C17_root_text. Qed.
Print Assumptions C17_root_partial.

(** [Person] with the calm types: a recursive tree, a unit enum. *)
Definition treeT := struct_ "Tree" ya0
  [fldA "w" (a_attr ya0) (tint I32); fld "sub" (TVec (BUser 1)); fld "kind" (TOpt (BUser 2))].
Definition kindT := enum_ "Kind" ya0 [vunit "Oak"; vunit "Fir"] (VVar 0 []).
Definition ET := [struct_ "Root" ya0 [fld "name" tstr; fld "tree" (tuser 1)]; treeT; kindT].
Example C17_case :
  calm ET (fun id => id = 1 \/ id = 2) /\
  calm_root (fun id => id = 1 \/ id = 2) [fld "name" tstr; fld "tree" (tuser 1)] /\
  from_str x0 ET 60 0 "<Root><name>a<b/></name><tree w=""1""><sub w=""2""/><kind>Fir</kind></tree>" =
    OErr "Unexpected end of stream: still inside the root element" /\
  from_str x0 ET 60 0 "<Root><name>n</name><tree w=""1""><sub w=""2""/><kind>Fir</kind></tree></Root>" =
    OOk (VRec [VStr "n"; VRec [VInt 1; VVec [VRec [VInt 2; VVec []; VOpt None]]; VOpt (Some (VVar 1 []))]]).
Proof.
  split; [|split; [|split; vm_compute; reflexivity]].
  - intros id [->| ->] td H; injection H as <-; cbn.
    + intros f Hf. repeat (destruct Hf as [<-|Hf]; [split; [reflexivity|split; [|]]|]); try (destruct Hf; fail);
        try (intros; eexists; reflexivity); try (intros; discriminate);
        try (intros [? ?]; discriminate); intros _; eexists; split; try reflexivity; auto.
    + intros l a fl t [H|[H|[]]]; discriminate.
  - intros f Hf. repeat (destruct Hf as [<-|Hf]; [split; [reflexivity|split; [|]]|]); try (destruct Hf; fail);
        try (intros; eexists; reflexivity); try (intros; discriminate).
    intros _ id H. injection H as <-. auto.
Qed.

(** ** C18: no panics

    Missing for the full claim: enum variants with a payload of simple type
    other than String (see the refutation). *)
Theorem C18_no_panic_partial :
  forall x E, panic_free E -> forall id, nth_error E id <> None ->
  forall fuel s m, from_str x E fuel id s <> OPanic m.
Proof. exact C18_lemma. Qed.
Print Assumptions C18_no_panic_partial.

(** The same for any source of properly nested events. *)
Theorem C18_events_partial :
  forall x E, panic_free E -> forall id, nth_error E id <> None ->
  forall fuel src m, nested_source src -> from_events x E fuel id src <> OPanic m.
Proof. exact C18_events_lemma. Qed.
Print Assumptions C18_events_partial.

Example C18_case : panic_free EP /\ panic_free ET /\ nth_error ET 0 <> None /\
  from_str x0 ET 60 0 "<Root><name/><tree w=""x""></name>" = OErr "invalid digit found in string".
Proof.
  split; [|split; [|split; [discriminate|vm_compute; reflexivity]]].
  - intros id td H. destruct id as [|[|[|id]]]; try discriminate H; injection H as <-; cbn; intros f Hf;
      repeat (destruct Hf as [<-|Hf]; [split; [cbn; trivial; discriminate|discriminate]|]); destruct Hf.
  - intros id td H. destruct id as [|[|[|[|id]]]]; try discriminate H; injection H as <-; cbn.
    + intros f Hf. repeat (destruct Hf as [<-|Hf]; [split; [cbn; trivial; discriminate|discriminate]|]); destruct Hf.
    + intros f Hf. repeat (destruct Hf as [<-|Hf]; [split; [cbn; trivial; discriminate|discriminate]|]); destruct Hf.
    + intros l a fl t [H|[H|[]]]; discriminate.
Qed.

Definition C18_full : Prop :=
  forall x E id, nth_error E id <> None -> forall fuel s m, from_str x E fuel id s <> OPanic m.
Definition numE := enum_ "E" ya0 [vunit "None"; vnew "Integer" (tint I32)] (VVar 0 []).
Theorem C18_refuted : ~ C18_full.
Proof.
  intros H.
  assert (Hx : exists m, from_str x0 [numE] 60 0 "<E><Integer>abc</Integer></E>" = OPanic m) by (vm_compute; eauto).
  destruct Hx as [m Hx]. revert Hx. apply H. discriminate.
Qed.
Print Assumptions C18_refuted.

(** ** C20: the results are well typed *)
Theorem C20_typed_result :
  forall x E, user_code_typed E x ->
  forall fuel id s v, from_str x E fuel id s = OOk v -> Typed E id v.
Proof. exact C20_text. Qed.
Print Assumptions C20_typed_result.

(** From any reader state, whatever the source of the events. *)
Theorem C20_typed_result_events :
  forall x E, user_code_typed E x ->
  forall fuel id st v, fst (run (De.de x E fuel id) st) = OOk v -> Typed E id v.
Proof. exact C20_lemma. Qed.
Print Assumptions C20_typed_result_events.

Example C20_case : user_code_typed ET x0 /\ user_code_typed EP x0 /\
  Typed EP 0 (annV ["x"; "y"] (Some pageV)) /\ ~ Typed EP 1 (VRec [VInt 4294967296; VStr ""]).
Proof.
  split; [|split; [|split]].
  - intros id td H. destruct id as [|[|[|[|id]]]]; try discriminate H; injection H as <-; cbn.
    + intros f Hf. repeat (destruct Hf as [<-|Hf]; [split; discriminate|]); destruct Hf.
    + intros f Hf. repeat (destruct Hf as [<-|Hf]; [split; discriminate|]); destruct Hf.
    + split; [eapply ty_unit; reflexivity|]. intros l a fl t [H|[H|[]]]; discriminate.
  - intros id td H. destruct id as [|[|[|id]]]; try discriminate H; injection H as <-; cbn;
      intros f Hf; repeat (destruct Hf as [<-|Hf]; [split; [discriminate|]; try discriminate|]); try (destruct Hf; fail).
    cbn. intros g b Hg Hb. injection Hg as <-. injection Hb as <-. apply bt_simple, hs_string.
  - apply (C20_typed_result x0 EP) with (fuel := 60)
      (s := "<person id=""7""><name>Ann</name><tag>x</tag><page><number>40</number><text>The Earth</text></page><tag>y</tag></person>").
    + intros id td H. destruct id as [|[|[|id]]]; try discriminate H; injection H as <-; cbn;
      intros f Hf; repeat (destruct Hf as [<-|Hf]; [split; [discriminate|]; try discriminate|]); try (destruct Hf; fail).
      cbn. intros g b Hg Hb. injection Hg as <-. injection Hb as <-. apply bt_simple, hs_string.
    + vm_compute. reflexivity.
  - intros H. inversion H; subst;
      repeat match goal with Ht : nth_error EP 1 = Some _ |- _ => injection Ht as <- end; try discriminate.
    match goal with Hb : t_body page = DStruct _ |- _ => injection Hb as <- end.
    match goal with Hf : FieldsTyped _ _ _ |- _ => inversion Hf; subst end.
    match goal with Hf : FTyped _ _ (VInt _) |- _ => inversion Hf; subst end.
    match goal with Hf : BTyped _ _ (VInt _) |- _ => inversion Hf; subst end.
    match goal with Hf : has_simple _ (VInt _) |- _ => inversion Hf as [| |? ? Hz|]; subst end.
    destruct Hz as [_ Hz]. apply Hz. reflexivity.
Qed.
