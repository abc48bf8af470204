(** * Properties of derived serializers: C22, C23 and C25 for single fields, in
      every struct and from every state of the serializer.

    Vocabulary: SpecSer.v, SpecWithin.v. *)
From Verif Require Import Str Num Xml XmlText Reader Schema De Ser Conform SpecTree SpecText SpecNum SpecTyped SpecStruct SpecSer
  SpecWithin SerProofs WithinProofs PropertiesStruct PropertiesSer.
Open Scope list_scope.

(** ** C22: one element per item

    Missing for the full claim: fields that are no plain elements (a Vec
    attribute is not written at all, see C40), suppressed fields (C23), and
    item types that are flattened themselves, for which it is false. *)
Theorem C22_vec_field_partial :
  forall x E id td fs1 f fs2 vs1 items vs2 w u b,
    struct_type E id td (fs1 ++ f :: fs2) -> List.length vs1 = List.length fs1 ->
    plain_element f -> f_ty f = TVec b -> base_has_element E b ->
    ~ suppressed x (VRec (vs1 ++ VVec items :: vs2)) f (VVec items) ->
    ser x E id (VRec (vs1 ++ VVec items :: vs2)) (fun _ => false) w = (SOk tt, u) ->
    exists parts,
      Among x E td (VRec (vs1 ++ VVec items :: vs2)) fs1 vs1 (concat parts) fs2 vs2 w u /\
      Forall2 (fun v part => one_element (qname (field_qname (t_attrs td) f)) part /\
                             ItemOut x E false (field_qname (t_attrs td) f) b v part) items parts.
Proof. exact vec_among. Qed.
Print Assumptions C22_vec_field_partial.

Theorem C22_option_none :
  forall x E id td fs1 f fs2 vs1 vs2 w u b,
    struct_type E id td (fs1 ++ f :: fs2) -> List.length vs1 = List.length fs1 ->
    ya_text (f_attrs f) = false -> f_ty f = TOpt b \/ f_ty f = TOptVec b ->
    ser x E id (VRec (vs1 ++ VOpt None :: vs2)) (fun _ => false) w = (SOk tt, u) ->
    Among x E td (VRec (vs1 ++ VOpt None :: vs2)) fs1 vs1 [] fs2 vs2 w u.
Proof. exact none_among. Qed.
Print Assumptions C22_option_none.

Theorem C22_option_some_partial :
  forall x E id td fs1 f fs2 vs1 v vs2 w u b,
    struct_type E id td (fs1 ++ f :: fs2) -> List.length vs1 = List.length fs1 ->
    plain_element f -> f_ty f = TOpt b -> base_has_element E b ->
    ~ suppressed x (VRec (vs1 ++ VOpt (Some v) :: vs2)) f (VOpt (Some v)) ->
    ser x E id (VRec (vs1 ++ VOpt (Some v) :: vs2)) (fun _ => false) w = (SOk tt, u) ->
    exists part,
      Among x E td (VRec (vs1 ++ VOpt (Some v) :: vs2)) fs1 vs1 part fs2 vs2 w u /\
      one_element (qname (field_qname (t_attrs td) f)) part /\
      ItemOut x E false (field_qname (t_attrs td) f) b v part.
Proof. exact some_among. Qed.
Print Assumptions C22_option_some_partial.

(** A person written as content only, by a serializer that has already written
    something. *)

Definition busy (skip : bool) (o : option string) : wstate := WState [WStart (nm "z") [] []] [nm "z"] 1 skip o.
Example C22_state_case :
  struct_type EP 0 person ([fldA "id" (a_attr ya0) (tint I32); fld "name" tstr] ++ tagF :: skipn 3 personFs) /\
  plain_element tagF /\ ~ suppressed x0 (annV ["x"; "y"] None) tagF (VVec [VStr "x"; VStr "y"]) /\
  (exists u, ser x0 EP 0 (annV ["x"; "y"] (Some pageV)) (fun _ => false) (busy false None) = (SOk tt, u) /\
     w_evs u = WStart (nm "z") [] [] :: annEvs ["x"; "y"] pageEvs) /\
  (exists u, ser x0 EP 0 (annV ["x"; "y"] (Some pageV)) (fun _ => false) (busy true None) = (SOk tt, u) /\
     w_evs u = WStart (nm "z") [] [] :: removelast (tl (annEvs ["x"; "y"] pageEvs))) /\
  Written x0 EP 0 None (annV [] None) (annEvs [] []).
Proof.
  split; [split; reflexivity|]. split; [repeat split; reflexivity|].
  split; [intros [H|[(g & H & _)|(g & H & _)]]; discriminate|].
  split; [eexists; split; [vm_compute; reflexivity|reflexivity]|].
  split; [eexists; split; [vm_compute; reflexivity|reflexivity]|].
  apply C21_events; vm_compute; reflexivity.
Qed.

(** Items of any type, in particular one with [#[yaserde(flatten)]]: nothing
    separates the two points. *)
Definition C22_full : Prop :=
  forall x E id td fs1 f fs2 o vs1 items vs2 l b,
    struct_type E id td (fs1 ++ f :: fs2) -> ya_flatten (t_attrs td) = false -> List.length vs1 = List.length fs1 ->
    plain_element f -> f_ty f = TVec b ->
    ~ suppressed x (VRec (vs1 ++ VVec items :: vs2)) f (VVec items) ->
    Written x E id o (VRec (vs1 ++ VVec items :: vs2)) l ->
    exists parts,
      Surrounded x E (t_attrs td) (VRec (vs1 ++ VVec items :: vs2)) fs1 vs1 (concat parts) fs2 vs2 l /\
      Forall2 (fun _ part => one_element (qname (field_qname (t_attrs td) f)) part) items parts.
Definition ptT := struct_ "Pt" (a_flatten ya0) [fld "x" (tint I32)].
Definition ptsF := fld "p" (TVec (BUser 1)).
Definition ptsT := struct_ "Pts" ya0 [ptsF].
Theorem C22_refuted : ~ C22_full.
Proof.
  intros H.
  destruct (H x0 [ptsT; ptT] 0 ptsT [] ptsF [] None [] [VRec [VInt 1]] []
     [WStart (nm "Pts") [] []; WStart (nm "x") [] []; WChars "1"; WEnd None; WEnd None] (BUser 1))
    as (parts & (n & a & m & p1 & p2 & Hl & H1 & H2) & Hp).
  - split; reflexivity.
  - reflexivity.
  - reflexivity.
  - repeat split; reflexivity.
  - reflexivity.
  - intros [Hs|[(g & Hs & _)|(g & Hs & _)]]; discriminate.
  - apply C21_events. vm_compute. reflexivity.
  - inversion H1; subst. inversion H2; subst. inversion Hp as [|? part ? ? Ho Hr]; subst. inversion Hr; subst.
    destruct Ho as (a' & m' & body & -> & _). discriminate.
Qed.
Print Assumptions C22_refuted.

(** ** C23: element fields that are left out, in any struct and any state.
    See PropertiesSer.v for attributes and what is false. *)
Theorem C23_any_state_partial :
  forall x E id td fs1 f fs2 vs1 v vs2 w u,
    struct_type E id td (fs1 ++ f :: fs2) -> List.length vs1 = List.length fs1 ->
    ya_attribute (f_attrs f) = false -> ya_text (f_attrs f) = false ->
    suppressed x (VRec (vs1 ++ v :: vs2)) f v ->
    ser x E id (VRec (vs1 ++ v :: vs2)) (fun _ => false) w = (SOk tt, u) ->
    Among x E td (VRec (vs1 ++ v :: vs2)) fs1 vs1 [] fs2 vs2 w u.
Proof. exact suppressed_among. Qed.
Print Assumptions C23_any_state_partial.
Definition hushF := fldA "h" (a_skip ya0) tstr.
Definition hushT := struct_ "H" (a_flatten ya0) [fld "n" (tint I32); hushF].
Example C23_any_state_case :
  suppressed x0 (VRec ([VInt 1] ++ VStr "s" :: [])) hushF (VStr "s") /\
  exists u, ser x0 [hushT] 0 (VRec ([VInt 1] ++ VStr "s" :: [])) (fun _ => false) (busy false (Some "q")) = (SOk tt, u) /\
    w_evs u = WStart (nm "z") [] [] :: [WStart (nm "n") [] []; WChars "1"; WEnd None].
Proof. split; [left; reflexivity|]. eexists; split; [vm_compute; reflexivity|reflexivity]. Qed.

(** ** C25: no dependence on earlier serialization

    The same field with the same value in any two structs, after any other
    fields, the serializers being in any two states (whatever their skip flag,
    start name, position and open elements): the same events. *)
Definition C25_full : Prop :=
  forall x E id td fs1 f fs2 vs1 v vs2 w u id' td' fs1' fs2' vs1' vs2' w' u',
    struct_type E id td (fs1 ++ f :: fs2) -> struct_type E id' td' (fs1' ++ f :: fs2') ->
    ya_default_namespace (t_attrs td) = ya_default_namespace (t_attrs td') ->
    List.length vs1 = List.length fs1 -> List.length vs1' = List.length fs1' ->
    ser x E id (VRec (vs1 ++ v :: vs2)) (fun _ => false) w = (SOk tt, u) ->
    ser x E id' (VRec (vs1' ++ v :: vs2')) (fun _ => false) w' = (SOk tt, u') ->
    exists p,
      Among x E td (VRec (vs1 ++ v :: vs2)) fs1 vs1 p fs2 vs2 w u /\
      Among x E td' (VRec (vs1' ++ v :: vs2')) fs1' vs1' p fs2' vs2' w' u'.
(** A [skip_serializing_if] function is a method, [self.hide(&self.b)], and may
    look at other fields. *)
Definition x25 : ext :=
  Ext (x_fshow x0) (x_fparse x0) (x_feq x0) (x_default x0)
      (fun _ self _ => match self with VRec (VInt 0 :: _) => true | _ => false end) (x_ushow x0) (x_uparse x0).
Definition hider : typedef := struct_ "H" ya0 [fldA "a" (a_attr ya0) (tint I32); fldA "b" (a_skip_if "hide" ya0) (tint I32)].
Theorem C25_self_refuted : ~ C25_full.
Proof.
  intros H.
  specialize (H x25 [hider] 0 hider [fldA "a" (a_attr ya0) (tint I32)] (fldA "b" (a_skip_if "hide" ya0) (tint I32)) [] [VInt 0] (VInt 5) [] w_init
    (snd (ser x25 [hider] 0 (VRec [VInt 0; VInt 5]) (fun _ => false) w_init)) 0 hider [fldA "a" (a_attr ya0) (tint I32)] [] [VInt 1] [] w_init
    (snd (ser x25 [hider] 0 (VRec [VInt 1; VInt 5]) (fun _ => false) w_init))).
  destruct H as (p & H1 & H2); try (split; reflexivity); try reflexivity.
  destruct H1 as (p1 & p2 & l & K1 & K2 & K3 & K4), H2 as (q1 & q2 & m & L1 & L2 & L3 & L4).
  inversion K1 as [|? ? ? ? c1 ? Ka Kb]; subst. inversion Kb; subst. inversion K2; subst. inversion L1 as [|? ? ? ? d1 ? La Lb]; subst. inversion Lb; subst. inversion L2; subst.
  inversion Ka; subst; try discriminate. inversion La; subst; try discriminate.
  destruct K3 as (n & a & ns & ->), L3 as (n' & a' & ns' & ->). cbn [concat app] in K4, L4. rewrite app_nil_r in K4, L4.
  apply (f_equal (@List.length wevent)) in K4. apply (f_equal (@List.length wevent)) in L4.
  replace (List.length (w_evs (snd _))) with 2 in K4 by (vm_compute; reflexivity). replace (List.length (w_evs (snd _))) with 5 in L4 by (vm_compute; reflexivity).
  cbn [w_evs w_init app List.length] in K4, L4. rewrite app_length in K4, L4. cbn [List.length] in K4, L4. lia.
Qed.
Print Assumptions C25_self_refuted.
(** Missing for the full claim: such functions that answer differently. *)
Theorem C25_field_events_partial :
  forall x E id td fs1 f fs2 vs1 v vs2 w u id' td' fs1' fs2' vs1' vs2' w' u',
    struct_type E id td (fs1 ++ f :: fs2) -> struct_type E id' td' (fs1' ++ f :: fs2') ->
    ya_default_namespace (t_attrs td) = ya_default_namespace (t_attrs td') ->
    List.length vs1 = List.length fs1 -> List.length vs1' = List.length fs1' ->
    (forall g, ya_skip_if (f_attrs f) = Some g ->
       x_skip_if x g (VRec (vs1 ++ v :: vs2)) v = x_skip_if x g (VRec (vs1' ++ v :: vs2')) v) ->
    ser x E id (VRec (vs1 ++ v :: vs2)) (fun _ => false) w = (SOk tt, u) ->
    ser x E id' (VRec (vs1' ++ v :: vs2')) (fun _ => false) w' = (SOk tt, u') ->
    exists p,
      Among x E td (VRec (vs1 ++ v :: vs2)) fs1 vs1 p fs2 vs2 w u /\
      Among x E td' (VRec (vs1' ++ v :: vs2')) fs1' vs1' p fs2' vs2' w' u'.
Proof. exact same_field_among. Qed.
Print Assumptions C25_field_events_partial.

(** Attribute fields: the same attributes in the start tag. *)
Theorem C25_attributes_partial :
  forall x E id td fs1 f fs2 vs1 v vs2 o l id' td' fs1' fs2' vs1' vs2' o' l',
    struct_type E id td (fs1 ++ f :: fs2) -> struct_type E id' td' (fs1' ++ f :: fs2') ->
    ya_flatten (t_attrs td) = false -> ya_flatten (t_attrs td') = false ->
    ya_attribute (f_attrs f) = true ->
    ya_default_namespace (t_attrs td) = ya_default_namespace (t_attrs td') ->
    List.length vs1 = List.length fs1 -> List.length vs1' = List.length fs1' ->
    (forall g, ya_skip_if (f_attrs f) = Some g ->
       x_skip_if x g (VRec (vs1 ++ v :: vs2)) v = x_skip_if x g (VRec (vs1' ++ v :: vs2')) v) ->
    Written x E id o (VRec (vs1 ++ v :: vs2)) l -> Written x E id' o' (VRec (vs1' ++ v :: vs2')) l' ->
    exists p,
      AmongAttrs x E td (VRec (vs1 ++ v :: vs2)) fs1 vs1 p fs2 vs2 l /\
      AmongAttrs x E td' (VRec (vs1' ++ v :: vs2')) fs1' vs1' p fs2' vs2' l'.
Proof. exact same_attr_among. Qed.
Print Assumptions C25_attributes_partial.

(** Fields of struct-like enum variants. *)
Theorem C25_variant_fields :
  forall x E id td i vr fs1 f fs2 vs1 v vs2 w u id' td' i' vr' fs1' fs2' vs1' vs2' w' u',
    variant_of E id td i vr -> v_body vr = VbNamed (fs1 ++ f :: fs2) ->
    variant_of E id' td' i' vr' -> v_body vr' = VbNamed (fs1' ++ f :: fs2') ->
    ya_default_namespace (t_attrs td) = ya_default_namespace (t_attrs td') ->
    List.length vs1 = List.length fs1 -> List.length vs1' = List.length fs1' ->
    ser x E id (VVar i (vs1 ++ v :: vs2)) (fun _ => false) w = (SOk tt, u) ->
    ser x E id' (VVar i' (vs1' ++ v :: vs2')) (fun _ => false) w' = (SOk tt, u') ->
    exists p, AmongNamed x E td fs1 vs1 p fs2 vs2 w u /\ AmongNamed x E td' fs1' vs1' p fs2' vs2' w' u'.
Proof. exact same_named_among. Qed.
Print Assumptions C25_variant_fields.

(** The payload of a tuple-like variant.  (A flattened payload of user type
    takes the place of the enum and is written under the name the enum was
    asked to use: the next theorem.) *)
Theorem C25_payload :
  forall x E id td i vr fl t v w u w' u',
    variant_of E id td i vr -> v_body vr = VbNew fl t ->
    (fl = true \/ ya_flatten (v_attrs vr) = true -> forall id, t <> TBase (BUser id)) ->
    ser x E id (VVar i [v]) (fun _ => false) w = (SOk tt, u) ->
    ser x E id (VVar i [v]) (fun _ => false) w' = (SOk tt, u') ->
    exists p l l', Frame (opens td w) p l /\ w_evs u = w_evs w ++ l /\
                   Frame (opens td w') p l' /\ w_evs u' = w_evs w' ++ l'.
Proof. exact same_payload. Qed.
Print Assumptions C25_payload.

(** Any type, started in any two states that ask for the same element: the
    same events are appended. *)
Theorem C25_prior_state :
  forall x E id v w w' w1,
    w_skip w = w_skip w' -> (w_skip w = false -> w_name w = w_name w') ->
    ser x E id v (fun _ => false) w = (SOk tt, w1) ->
    exists l w1', w_evs w1 = w_evs w ++ l /\
      ser x E id v (fun _ => false) w' = (SOk tt, w1') /\ w_evs w1' = w_evs w' ++ l.
Proof. exact state_independent. Qed.
Print Assumptions C25_prior_state.

(** The field [p] after a flattened field (which leaves the flags set to "leave
    out the element"), and alone in a struct that is written without its
    element. *)
Definition inner := struct_ "I" ya0 [fld "n" (tint I32)].
Definition pF := fld "p" (tuser 2).
Definition outerA := struct_ "A" ya0 [fldA "i" (a_flatten ya0) (tuser 2); pF].
Definition outerB := struct_ "B" ya0 [pF].
Example C25_case :
  let e t := [WStart (nm "n") [] []; WChars t; WEnd None] in
  let p := WStart (nm "p") [] [] :: e "2" ++ [WEnd None] in
  (exists u, ser x0 [outerA; outerB; inner] 0 (VRec ([VRec [VInt 1]] ++ VRec [VInt 2] :: [])) (fun _ => false) w_init = (SOk tt, u) /\
    w_evs u = WStart (nm "A") [] [] :: e "1" ++ p ++ [WEnd None]) /\
  (exists u, ser x0 [outerA; outerB; inner] 1 (VRec ([] ++ VRec [VInt 2] :: [])) (fun _ => false) (busy true (Some "q")) = (SOk tt, u) /\
    w_evs u = WStart (nm "z") [] [] :: p).
Proof. split; eexists; (split; [vm_compute; reflexivity|reflexivity]). Qed.

Example C25_attributes_case :
  Written x0 EP 0 None (annV [] None) (annEvs [] []) /\
  struct_type EP 0 person ([] ++ fldA "id" (a_attr ya0) (tint I32) :: tl personFs).
Proof. split; [apply C21_events; vm_compute; reflexivity|split; reflexivity]. Qed.

(** A struct-like variant with a field of user type between two others, and a
    payload variant; both written in two states. *)
Definition mixT := enum_ "M" ya0
  [Variant "S" ya0 (VbNamed ([fld "a" (tint I32)] ++ fld "i" (tuser 1) :: [fld "b" tstr])); vnew "P" (TVec (BUser 1))] (VVar 1 [VVec []]).
Example C25_variant_case :
  let e q t := [WStart (nm q) [] []; WChars t; WEnd None] in
  let body := e "a" "1" ++ (WStart (nm "i") [] [] :: e "n" "2" ++ [WEnd None]) ++ e "b" "x" in
  variant_of [mixT; inner] 0 mixT 0 (Variant "S" ya0 (VbNamed ([fld "a" (tint I32)] ++ fld "i" (tuser 1) :: [fld "b" tstr]))) /\
  variant_of [mixT; inner] 0 mixT 1 (vnew "P" (TVec (BUser 1))) /\
  (exists u, ser x0 [mixT; inner] 0 (VVar 0 ([VInt 1] ++ VRec [VInt 2] :: [VStr "x"])) (fun _ => false) (busy false (Some "q")) = (SOk tt, u) /\
     w_evs u = WStart (nm "z") [] [] :: WStart (nm "q") [] [] :: body ++ [WEnd None]) /\
  (exists u, ser x0 [mixT; inner] 0 (VVar 0 ([VInt 1] ++ VRec [VInt 2] :: [VStr "x"])) (fun _ => false) (busy true None) = (SOk tt, u) /\
     w_evs u = WStart (nm "z") [] [] :: body) /\
  (exists u, ser x0 [mixT; inner] 0 (VVar 1 [VVec [VRec [VInt 2]; VRec [VInt 3]]]) (fun _ => false) (busy true None) = (SOk tt, u) /\
     w_evs u = WStart (nm "z") [] [] :: (WStart (nm "P") [] [] :: e "n" "2" ++ [WEnd None]) ++ (WStart (nm "P") [] [] :: e "n" "3" ++ [WEnd None])).
Proof.
  split; [split; [reflexivity|do 2 eexists; split; reflexivity]|].
  split; [split; [reflexivity|do 2 eexists; split; reflexivity]|].
  repeat split; eexists; (split; [vm_compute; reflexivity|reflexivity]).
Qed.
