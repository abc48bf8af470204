(** * Unknown variants and flattened fields: C30, C34; fuel: C17.

    Vocabulary: SpecEnum.v ([Unknown]), SpecFlat.v ([Unclaimed]). *)
From Verif Require Import Str Num Xml XmlText Reader Schema De Ser Conform SpecTree SpecText SpecTyped SpecStruct SpecSer SpecValue
  SpecEnum EnumProofs SpecFlat FlatProofs FuelProofs RoundText RoundCheck OutCheck FitsCheck SerProofs PropertiesStruct PropertiesSer.
Open Scope list_scope.

(** ** C30: unknown variants

    Neither the element itself nor anything inside of it names a variant (by
    its name, or by the tag attribute if the enum has one), nor does a text.
    Missing for the full claim: elements whose own name is that of a variant
    (see the refutation). *)
Theorem C30_default_partial :
  forall x E id td vs dflt d n attrs m kids,
    nth_error E id = Some td -> t_body td = DEnum vs dflt ->
    bad_namespace (t_attrs td) n = None -> Unknown (ya_tag (t_attrs td)) vs (Elem n attrs m kids) ->
    Reads x E id d (Elem n attrs m kids) (OOk dflt).
Proof. exact unknown_default. Qed.
Print Assumptions C30_default_partial.

(** The other conditions are needed. *)
Theorem C30_namespace :
  forall x E id td vs dflt d n attrs m kids msg,
    nth_error E id = Some td -> t_body td = DEnum vs dflt -> bad_namespace (t_attrs td) n = Some msg ->
    Reads x E id d (Elem n attrs m kids) (OErr msg).
Proof. exact enum_namespace. Qed.
Print Assumptions C30_namespace.
Theorem C30_no_tag :
  forall x E id td vs dflt d n attrs m kids tg,
    nth_error E id = Some td -> t_body td = DEnum vs dflt -> bad_namespace (t_attrs td) n = None ->
    ya_tag (t_attrs td) = Some tg -> mention (Some tg) n attrs = None ->
    Reads x E id d (Elem n attrs m kids) (OErr ("Expected enum tagged with " +++ tg)).
Proof. exact enum_untagged. Qed.
Print Assumptions C30_no_tag.
(** An element named like a unit variant gives that variant. *)
Theorem C30_own_name :
  forall x E id td vs dflt d n attrs m kids i,
    nth_error E id = Some td -> t_body td = DEnum vs dflt -> bad_namespace (t_attrs td) n = None ->
    ya_tag (t_attrs td) = None -> variant_for vs (n_local n) = Some (i, VbUnit) ->
    Reads x E id d (Elem n attrs m kids) (OOk (VVar i [])).
Proof. exact own_name_wins. Qed.
Print Assumptions C30_own_name.

Ltac no_var := let v := fresh in let Hv := fresh in intros v Hv; simpl in Hv;
  repeat (destruct Hv as [Hv|Hv]; [subst v; first [discriminate|intros; eexists; reflexivity]|]); destruct Hv.
Ltac unknown := first
  [ apply unknown_txt; no_var
  | eapply unknown_elem; [reflexivity|no_var|
      let k := fresh in let Hk := fresh in intros k Hk; simpl in Hk;
      repeat (destruct Hk as [Hk|Hk]; [subst k; unknown|]); try (destruct Hk; fail)] ].
(** A struct-like variant is never found. *)
Definition kindE := enum_ "Kind" ya0 [vunit "A"; vnew "B" tstr; Variant "C" ya0 (VbNamed [fld "y" tstr])] (VVar 1 [VStr "d"]).
Example C30_case :
  let vs := match t_body kindE with DEnum vs _ => vs | _ => [] end in
  let t := el "kind" [leaf "X" "abc"; Txt "C"; el "Y" [el "Z" []; Txt "b"]; el "C" []] in
  Unknown None vs t /\
  document "<kind><X>abc</X>C<Y><Z/>b</Y><C/></kind>" t /\
  from_str x0 [kindE] fuel 0 "<kind><X>abc</X>C<Y><Z/>b</Y><C/></kind>" = OOk (VVar 1 [VStr "d"]).
Proof. split; [unknown|split; vm_compute; reflexivity]. Qed.
Example C30_case_tagged :
  let vs := match t_body tagged with DEnum vs _ => vs | _ => [] end in
  let t := Elem (nm "foobar") [at1 "type" "qux"] [] [Elem (nm "foo") [at1 "type" "quux"] [] [Txt "baz"]] in
  Unknown (ya_tag (t_attrs tagged)) vs t /\
  from_str x0 [tagged] fuel 0 "<foobar type=""qux""><foo type=""quux"">baz</foo></foobar>" = OOk (VVar 0 []).
Proof. split; [unknown|vm_compute; reflexivity]. Qed.

Definition C30_full : Prop :=
  forall x E id td vs dflt n attrs m kids s,
    nth_error E id = Some td -> t_body td = DEnum vs dflt -> ya_tag (t_attrs td) = None ->
    bad_namespace (t_attrs td) n = None -> (forall k, In k kids -> Unknown None vs k) ->
    document s (Elem n attrs m kids) ->
    exists N, forall fuel, N <= fuel -> from_str x E fuel id s = OOk dflt.
Theorem C30_refuted : ~ C30_full.
Proof.
  intros H. specialize (H x0 [kindE] 0 kindE _ _ (nm "A") [] [] [Txt "zzz"] "<A>zzz</A>" eq_refl eq_refl eq_refl eq_refl).
  apply (answers _ _ _ _ fuel (OOk (VVar 0 []))) in H; [discriminate|vm_compute; reflexivity|discriminate|..].
  - intros k [<-|[]]. unknown.
  - vm_compute. reflexivity.
Qed.
Print Assumptions C30_refuted.
(** The same in a field: its name happens to be that of a variant. *)
Example C30_field :
  from_str x0 [struct_ "S" ya0 [fld "A" (tuser 1)]; kindE] fuel 0 "<S><A>zzz</A></S>" = OOk (VRec [VVar 0 []]).
Proof. vm_compute. reflexivity. Qed.

(** ** C34: flattened fields

    Reading.  [rest] are the children that belong to no field of the struct;
    the flattened value is what reading the element with only these children
    gives ([reread [] (wn _)]: the element as it is after being written and
    parsed again).  Missing for the full claim: documents on which the
    collection of the rest breaks (see the refutations). *)
Theorem C34_read_partial :
  forall x E k id td fs d n a m kids rest i f vs,
    struct_type E id td fs -> nth_error fs i = Some f -> flattened f ->
    Unclaimed (t_attrs td) fs kids rest -> Conforms x E k id (Elem n a m kids) ->
    Reads x E id d (Elem n a m kids) (OOk (VRec vs)) ->
    (forall id', f_ty f = TBase (BUser id') ->
       exists v, nth_error vs i = Some v /\ Reads x E id' 0 (reread [] (wn (Elem n a m rest))) (OOk v)) /\
    (forall id', f_ty f = TOpt (BUser id') ->
       (exists v, nth_error vs i = Some (VOpt (Some v)) /\ Reads x E id' 0 (reread [] (wn (Elem n a m rest))) (OOk v)) \/
       (nth_error vs i = Some (VOpt None) /\ exists e, Reads x E id' 0 (reread [] (wn (Elem n a m rest))) (OErr e))).
Proof. exact flat_read. Qed.
Print Assumptions C34_read_partial.

Definition outer := struct_ "S" ya0 [fld "a" (TOpt (BSimple SString)); fldA "inner" (a_flatten ya0) (tuser 1); fld "k" (TOpt (BUser 2))].
Definition inner := struct_ "Inner" ya0 [fld "b" (tint I32); fldA "c" (a_attr ya0) tstr].
Definition kindP := enum_ "Kind" ya0 [vunit "A"; vnew "B" tstr] (VVar 0 []).
Definition EF := [outer; inner; kindP].
Definition outerFs := match t_body outer with DStruct fs => fs | _ => [] end.
Definition outerKids := [leaf "a" "x"; leaf "b" "1"; el "k" [leaf "B" "t"]; Txt "z"; leaf "u" "2"].
Definition outerRest := [leaf "b" "1"; Txt "z"; leaf "u" "2"].
Lemma C34_rest : Unclaimed (t_attrs outer) outerFs outerKids outerRest.
Proof.
  assert (Hk : forall n a m ks, n_local n <> "a" -> n_local n <> "k" -> ~ claimed (t_attrs outer) outerFs (Elem n a m ks)).
  { intros n a m ks Ha Hb (n' & a' & m' & ks' & f & Heq & Hin & [Hx Hy] & Hl). injection Heq as <- <- <- <-.
    destruct Hin as [<-|[<-|[<-|[]]]]; try discriminate; injection Hl as _ Hl; cbn in Hl; congruence. }
  repeat first [apply un_nil
    | apply un_drop; [do 5 eexists; split; [reflexivity|]; first [solve [split; [left; reflexivity|repeat split; reflexivity]]|solve [split; [right; right; left; reflexivity|repeat split; reflexivity]]]|]
    | apply un_keep; [first [apply Hk; discriminate|intros (? & ? & ? & ? & ? & Hx & _); discriminate]|]].
Qed.
Definition outerV := VRec [VOpt (Some (VStr "x")); VRec [VInt 1; VStr "q"]; VOpt (Some (VVar 1 [VStr "t"]))].
Example C34_read_case :
  Conforms x0 EF 1 0 (Elem (nm "S") [at1 "c" "q"] [] outerKids) /\
  Reads x0 EF 0 0 (Elem (nm "S") [at1 "c" "q"] [] outerKids) (OOk outerV) /\
  reread [] (wn (Elem (nm "S") [at1 "c" "q"] [] outerRest)) = Elem (nm "S") [at1 "c" "q"] [] outerRest /\
  from_str x0 EF fuel 1 "<S c=""q""><b>1</b>z<u>2</u></S>" = OOk (VRec [VInt 1; VStr "q"]).
Proof.
  assert (Hc : Conforms x0 EF 1 0 (Elem (nm "S") [at1 "c" "q"] [] outerKids)) by (apply (conformsb_ok x0 EF 9); vm_compute; reflexivity).
  split; [exact Hc|]. split; [|split; vm_compute; reflexivity].
  apply (StructReads.read_decode x0 EF 1); [exact Hc|vm_compute; reflexivity].
Qed.

(** As long as nothing has to be known about the other fields, the value of the
    flattened field is that of the document without their elements.  False:
    after a unit variant (and after an empty element of a simple field, or one
    that does not parse) the rest is lost. *)
Definition C34_full : Prop :=
  forall x E id td fs n a m kids rest i f id' vs v s s' fuel,
    struct_type E id td fs -> nth_error fs i = Some f -> flattened f -> f_ty f = TOpt (BUser id') ->
    Unclaimed (t_attrs td) fs kids rest ->
    document s (Elem n a m kids) -> document s' (Elem n a m rest) ->
    from_str x E fuel id s = OOk (VRec vs) -> from_str x E fuel id' s' = OOk v ->
    nth_error vs i = Some (VOpt (Some v)).
Definition lossy := [struct_ "S" ya0 [fld "k" (tuser 2); fldA "inner" (a_flatten ya0) (TOpt (BUser 1))];
                     struct_ "Inner" ya0 [fld "b" (tint I32)]; kindP].
Theorem C34_refuted : ~ C34_full.
Proof.
  intros H.
  specialize (H x0 lossy 0 _ _ (nm "S") [] [] [leaf "k" "A"; leaf "b" "1"] [leaf "b" "1"] 1
                (fldA "inner" (a_flatten ya0) (TOpt (BUser 1))) 1
                [VVar 0 []; VOpt None] (VRec [VInt 1]) "<S><k>A</k><b>1</b></S>" "<S><b>1</b></S>" fuel
                (conj eq_refl eq_refl) eq_refl (conj eq_refl eq_refl) eq_refl).
  enough (Some (VOpt None) = Some (VOpt (Some (VRec [VInt 1])))) by discriminate.
  apply H; try (vm_compute; reflexivity).
  apply un_drop; [do 5 eexists; split; [reflexivity|]; split; [left; reflexivity|]; repeat split; reflexivity|].
  apply un_keep; [|apply un_nil].
  intros (n & a & m & ks & f & Heq & Hin & [Ha Hf] & Hl). injection Heq as <- <- <- <-.
  destruct Hin as [<-|[<-|[]]]; discriminate.
Qed.
Print Assumptions C34_refuted.
Example C34_empty_field :
  from_str x0 EF fuel 0 "<S c=""q""><a>x</a><b>1</b></S>" = OOk (VRec [VOpt (Some (VStr "x")); VRec [VInt 1; VStr "q"]; VOpt None]) /\
  from_str x0 EF fuel 0 "<S c=""q""><a></a><b>1</b></S>" = OErr "inner is a required field of S".
Proof. split; vm_compute; reflexivity. Qed.

(** Writing: the attributes of the flattened value, written as an element of
    its own, are attributes of the parent's element, where all their prefixes
    are declared. *)
Theorem C34_attributes :
  forall x E id td fs o vs n a m body i f id' td' v n' a' m' body',
    struct_type E id td fs -> ya_flatten (t_attrs td) = false ->
    Written x E id o (VRec vs) (WStart n a m :: body) ->
    nth_error fs i = Some f -> nth_error vs i = Some v -> flattened f -> f_ty f = TBase (BUser id') ->
    nth_error E id' = Some td' -> has_element td' ->
    Written x E id' None v (WStart n' a' m' :: body') ->
    (exists a1 a2, a = a1 ++ a' ++ a2) /\ (forall p u, In (p, u) m' -> exists u', In (p, u') m).
Proof. exact flat_attributes. Qed.
Print Assumptions C34_attributes.
Example C34_attributes_case :
  let size := Attr (Name "size" None (Some "ns")) "24" in
  Written x0 E_html 0 None html_val
    (WStart (nm "HtmlText") [at1 "display" "block"; at1 "bold" "true"; size] [("ns", "dom")] :: [WEnd None]) /\
  Written x0 E_html 1 None (VRec [VBool true; VRec [VInt 24]])
    (WStart (nm "TextAttributes") [at1 "bold" "true"; size] [("ns", "dom")] :: [WEnd None]).
Proof. split; apply C21_events; vm_compute; reflexivity. Qed.

(** The content of the flattened values stands where an element of the field
    would, without an element around it. *)
Theorem C34_content :
  forall x E id td fs1 f fs2 o vs1 v vs2 l b items,
    struct_type E id td (fs1 ++ f :: fs2) -> ya_flatten (t_attrs td) = false -> List.length vs1 = List.length fs1 ->
    flattened f -> ya_text (f_attrs f) = false -> ya_cdata (f_attrs f) = false -> base_of (f_ty f) = BUser b ->
    items_of (f_ty f) v = Some items -> ~ suppressed x (VRec (vs1 ++ v :: vs2)) f v ->
    Written x E id o (VRec (vs1 ++ v :: vs2)) l ->
    exists parts, Forall2 (Content x E b) items parts /\
      Surrounded x E (t_attrs td) (VRec (vs1 ++ v :: vs2)) fs1 vs1 (concat parts) fs2 vs2 l.
Proof. exact flat_content. Qed.
Print Assumptions C34_content.
(** The content of a struct is what its own element would hold. *)
Theorem C34_struct_content :
  forall x E id td fs o vs n a m body,
    struct_type E id td fs -> ya_flatten (t_attrs td) = false ->
    Written x E id o (VRec vs) (WStart n a m :: body ++ [WEnd None]) -> Content x E id (VRec vs) body.
Proof. exact struct_content. Qed.
Print Assumptions C34_struct_content.
Example C34_content_case :
  let e q t := [WStart (nm q) [] []; WChars t; WEnd None] in
  ~ suppressed x0 (VRec ([VOpt (Some (VStr "x"))] ++ VRec [VInt 1; VStr "q"] :: [VOpt (Some (VVar 1 [VStr "t"]))])) (fldA "inner" (a_flatten ya0) (tuser 1)) (VRec [VInt 1; VStr "q"]) /\
  Written x0 EF 0 None (VRec ([VOpt (Some (VStr "x"))] ++ VRec [VInt 1; VStr "q"] :: [VOpt (Some (VVar 1 [VStr "t"]))]))
    (WStart (nm "S") [at1 "c" "q"] [] :: e "a" "x" ++ e "b" "1" ++ (WStart (nm "k") [] [] :: e "B" "t" ++ [WEnd None]) ++ [WEnd None]) /\
  Written x0 EF 1 None (VRec [VInt 1; VStr "q"]) (WStart (nm "Inner") [at1 "c" "q"] [] :: e "b" "1" ++ [WEnd None]).
Proof.
  split; [intros [H|[(g & H & _)|(g & H & _)]]; discriminate|].
  split; apply C21_events; vm_compute; reflexivity.
Qed.

(** ** C17: more fuel changes nothing

    The number that bounds the loops of the model is no part of the behaviour:
    two readings of a text that both finish agree. *)
Theorem C17_fuel :
  forall x E id s f f', from_str x E f id s <> OFuel -> from_str x E f' id s <> OFuel ->
    from_str x E f id s = from_str x E f' id s.
Proof. intros x E id s. exact (fuel_unique x E id (parse_text s)). Qed.
Print Assumptions C17_fuel.
Theorem C17_fuel_more :
  forall x E id s f f', f <= f' -> from_str x E f id s <> OFuel -> from_str x E f' id s = from_str x E f id s.
Proof. intros x E id s. exact (fuel_more x E id (parse_text s)). Qed.
Print Assumptions C17_fuel_more.
Example C17_fuel_case :
  from_str x0 E_dt 3 0 dt_txt = OFuel /\ from_str x0 E_dt 100 0 dt_txt = OOk dt_val /\ from_str x0 E_dt 200 0 dt_txt = OOk dt_val.
Proof. repeat split; vm_compute; reflexivity. Qed.
