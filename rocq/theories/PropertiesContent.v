(** * C49, C50: [to_string_content] and the XML declaration.

    Vocabulary: SpecContent.v ([between], [Undeclared], [own_content]) and
    SpecSer.v ([has_element]). *)
From Verif Require Import Str Num Xml XmlText Reader Schema De Ser Conform SpecTree SpecText SpecSer SpecContent ContentProofs.
Open Scope list_scope.

(** ** C49 *)

(** [between] leaves no choice: the content of an element is determined by its text. *)
Theorem C49_determined : forall q c c' t, between q c t -> between q c' t -> c = c'.
Proof. exact between_determined. Qed.
Print Assumptions C49_determined.

(** Missing: variants with a flattened payload, and types that declare
    namespaces on their start tag; both are refuted below. *)
Theorem C49_content_partial :
  forall x E id td v t, nth_error E id = Some td -> has_element td -> plain_attributes E -> Undeclared E id ->
    own_content td v -> to_string x E id v = SOk t ->
    exists c t', to_string_content (ser x E) id v = SOk c /\ t = xml_decl +++ t' /\ between (root_name td) c t'.
Proof. exact content_between. Qed.
Print Assumptions C49_content_partial.

Definition E_c49 :=
  [struct_ "Box" (a_rename "box" ya0)
     [fldA "id" (a_attr ya0) (tint U8); fldA "more" (a_flatten ya0) (tuser 1); fld "item" (TVec (BUser 2));
      fldA "t" (a_text ya0) tstr];
   struct_ "More" ya0 [fldA "to" (a_attr ya0) tstr; fld "x" tbool];
   enum_ "Item" (a_ns [("n", "urn:n")] (a_prefix "n" ya0)) [vunit "A"; vnew "B" tstr] (VVar 0 [])].
Definition v_c49 := VRec [VInt 7; VRec [VStr "a>b"; VBool true]; VVec [VVar 0 []; VVar 1 [VStr "y"]]; VStr "<"].
Example C49_case :
  has_element (nth 0 E_c49 (TypeDef "" ya0 (DPrim (PInner SString)))) /\ plain_attributes E_c49 /\ Undeclared E_c49 0 /\
  own_content (nth 0 E_c49 (TypeDef "" ya0 (DPrim (PInner SString)))) v_c49 /\
  to_string x0 E_c49 0 v_c49 = SOk (decl +++
    "<box id=""7"" to=""a&gt;b""><x>true</x><item xmlns:n=""urn:n"">A</item><item xmlns:n=""urn:n""><B>y</B></item>&lt;</box>") /\
  to_string_content (ser x0 E_c49) 0 v_c49 = SOk
    "<x>true</x><item xmlns:n=""urn:n"">A</item><item xmlns:n=""urn:n""><B>y</B></item>&lt;".
Proof.
  split; [right; reflexivity|]. split.
  { intros td [<-|[<-|[<-|[]]]]; (split; [intros t H; discriminate|]); intros fs f H Hf Ha; try discriminate;
    injection H as <-; cbn [In] in Hf; decompose [or] Hf; subst; try discriminate; try contradiction; vm_compute; reflexivity. }
  split.
  { eapply un_struct; [reflexivity|reflexivity|reflexivity|]. intros f id' Hf Ha Hfl Hty.
    cbn [In] in Hf. decompose [or] Hf; subst; try discriminate; try contradiction. injection Hty as <-.
    eapply un_struct; [reflexivity|reflexivity|reflexivity|]. intros f id' Hf' Ha' Hfl' Hty'.
    cbn [In] in Hf'. decompose [or] Hf'; subst; try discriminate; try contradiction. }
  split; [intros vs d i l vr fl id H; discriminate|]. split; vm_compute; reflexivity.
Qed.

Definition C49_full : Prop :=
  forall x E id td v t, nth_error E id = Some td -> has_element td -> plain_attributes E -> to_string x E id v = SOk t ->
    exists c t', to_string_content (ser x E) id v = SOk c /\ t = xml_decl +++ t' /\ between (root_name td) c t'.

Ltac not_between H E v t' c :=
  destruct H as (c0 & t0 & H1 & H2 & H3);
  assert (Hc : c0 = c) by (vm_compute in H1; injection H1 as <-; reflexivity);
  assert (Ht : t0 = t') by (apply (append_cancel xml_decl); rewrite <- H2; reflexivity); subst c0 t0.

(** The payload's own element is dropped together with that of the enum. *)
Definition flat_pay :=
  [enum_ "W" ya0 [Variant "P" (a_flatten ya0) (VbNew false (tuser 1))] (VVar 0 [VRec [VStr ""]]);
   struct_ "P" ya0 [fld "a" tstr]].
Theorem C49_flattened_refuted : ~ C49_full.
Proof.
  intros H. specialize (H x0 flat_pay 0 _ (VVar 0 [VRec [VStr "s"]]) (decl +++ "<W><P><a>s</a></P></W>")
    eq_refl ltac:(right; reflexivity)).
  specialize (H ltac:(intros td [<-|[<-|[]]]; (split; [intros t H0; discriminate|]); intros fs f H0 Hf Ha; try discriminate;
    injection H0 as <-; cbn [In] in Hf; decompose [or] Hf; subst; try discriminate; try contradiction)).
  specialize (H ltac:(vm_compute; reflexivity)).
  not_between H flat_pay v "<W><P><a>s</a></P></W>" "<a>s</a>".
  pose proof (between_determined "W" "<a>s</a>" "<P><a>s</a></P>" "<W><P><a>s</a></P></W>" H3) as H.
  discriminate H. exists "". split; [reflexivity|left; reflexivity].
Qed.
Print Assumptions C49_flattened_refuted.

(** Namespaces declared by the dropped start tag are declared again inside. *)
Definition ns_twice :=
  [struct_ "S" (a_ns [("n", "urn:n")] ya0) [fld "c" (tuser 1)]; struct_ "C" (a_ns [("n", "urn:n")] ya0) [fld "a" tstr]].
Theorem C49_namespace_refuted : ~ C49_full.
Proof.
  intros H. specialize (H x0 ns_twice 0 _ (VRec [VRec [VStr "s"]])
    (decl +++ "<S xmlns:n=""urn:n""><c><a>s</a></c></S>") eq_refl ltac:(right; reflexivity)).
  specialize (H ltac:(intros td [<-|[<-|[]]]; (split; [intros t H0; discriminate|]); intros fs f H0 Hf Ha; try discriminate;
    injection H0 as <-; cbn [In] in Hf; decompose [or] Hf; subst; try discriminate; try contradiction)).
  specialize (H ltac:(vm_compute; reflexivity)).
  not_between H ns_twice v "<S xmlns:n=""urn:n""><c><a>s</a></c></S>" "<c xmlns:n=""urn:n""><a>s</a></c>".
  pose proof (between_determined "S" _ "<c><a>s</a></c>" _ H3) as H.
  discriminate H. exists " xmlns:n=""urn:n""". split; [reflexivity|left; reflexivity].
Qed.
Print Assumptions C49_namespace_refuted.

(** ** C50 *)

(** Only when nothing at all is written is there no declaration either. *)
Theorem C50_prefix :
  forall x E i ind id v t, to_string_with_config x E (Config i true ind) id v = SOk t ->
    exists t', to_string_with_config x E (Config i false ind) id v = SOk t' /\
      ((t = "" /\ t' = "") \/ t = xml_decl +++ t' \/ (i = true /\ t = xml_decl +++ nl +++ t')).
Proof. exact declaration_prefix. Qed.
Print Assumptions C50_prefix.

(** Whatever it is read as, by whatever type. *)
Theorem C50_reads :
  forall x E i ind id v t t' x' E' fuel id',
    to_string_with_config x E (Config i true ind) id v = SOk t ->
    to_string_with_config x E (Config i false ind) id v = SOk t' ->
    from_str x' E' fuel id' t = from_str x' E' fuel id' t'.
Proof. exact declaration_reads. Qed.
Print Assumptions C50_reads.

Example C50_case :
  let t' := "<box id=""7"" to=""a&gt;b"">" +++ nl +++ " <x>true</x>" +++ nl +++ " <item xmlns:n=""urn:n"">A</item>&lt;</box>" in
  let v := VRec [VInt 7; VRec [VStr "a>b"; VBool true]; VVec [VVar 0 []]; VStr "<"] in
  to_string_with_config x0 E_c49 (Config true true (Some " ")) 0 v = SOk (decl +++ nl +++ t') /\
  to_string_with_config x0 E_c49 (Config true false (Some " ")) 0 v = SOk t' /\
  from_str x0 E_c49 60 0 t' = from_str x0 E_c49 60 0 (decl +++ nl +++ t').
Proof. split; [vm_compute; reflexivity|]. split; vm_compute; reflexivity. Qed.
