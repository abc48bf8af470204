(** * Properties of derived serializers: C21-C25.

    Vocabulary: SpecSer.v; [Typed] is defined in SpecTyped.v, [struct_type] in
    SpecStruct.v; example types in PropertiesStruct.v. *)
From Verif Require Import Str Num Xml XmlText Reader Schema De Ser Conform SpecTree SpecText SpecNum SpecTyped SpecStruct SpecSer
  SerProofs PropertiesStruct.
Open Scope list_scope.

(** ** C21: nesting *)
Theorem C21_well_nested :
  forall x E id v l, ser_events x E id v = SOk l -> Nested l.
Proof. exact ser_nested. Qed.
Print Assumptions C21_well_nested.

(** One root element, named as asked or after the type. *)
Theorem C21_one_root :
  forall x E id td o v l, nth_error E id = Some td -> has_element td -> Written x E id o v l ->
    one_element (qname (match o with
                        | Some q => q
                        | None => match t_body td with DPrim _ => t_name td | _ => ser_root td end
                        end)) l.
Proof. exact written_one. Qed.
Print Assumptions C21_one_root.

Theorem C21_events : forall x E id v l, ser_events x E id v = SOk l <-> Written x E id None v l.
Proof. exact events_written. Qed.
Print Assumptions C21_events.

(** Every value of a serializable type is written: no writer error (such as
    "no open element") occurs. *)
Theorem C21_no_writer_error :
  forall x E id v, serializable E -> Typed E id v -> exists l, ser_events x E id v = SOk l.
Proof. exact ser_total. Qed.
Print Assumptions C21_no_writer_error.

Definition annEvs (tags : list string) (page : list wevent) : list wevent :=
  let e s t := [WStart (nm s) [] []; WChars t; WEnd None] in
  WStart (nm "Person") [at1 "id" "7"] [] :: e "name" "Ann" ++ flat_map (e "tag") tags ++ page ++ [WChars ""; WEnd None].
Definition pageEvs : list wevent :=
  [WStart (nm "page") [] []; WStart (nm "number") [] []; WChars "40"; WEnd None;
   WStart (nm "text") [] []; WChars "The Earth"; WEnd None; WEnd None].
Example C21_case :
  serializable EP /\ Typed EP 0 (annV ["x"; "y"] (Some pageV)) /\
  ser_events x0 EP 0 (annV ["x"; "y"] (Some pageV)) = SOk (annEvs ["x"; "y"] pageEvs).
Proof.
  split; [|split; [|vm_compute; reflexivity]].
  - intros id td H. destruct id as [|[|[|id]]]; try discriminate; injection H as <-; cbn [t_body person page struct_];
      intros f Hf; simpl in Hf; repeat (destruct Hf as [Hf|Hf]; [subst f; unfold field_serializable; simpl; try discriminate; auto|]); destruct Hf.
  - eapply ty_struct; [reflexivity|reflexivity|].
    repeat (apply fs_cons || apply fs_nil); simpl f_ty.
    + apply ft_base, bt_simple, hs_int. red. vm_compute. split; discriminate.
    + apply ft_base, bt_simple, hs_string.
    + apply ft_vec. intros v [<-|[<-|[]]]; apply bt_simple, hs_string.
    + apply ft_none.
    + apply ft_some, bt_user. eapply ty_struct; [reflexivity|reflexivity|].
      repeat (apply fs_cons || apply fs_nil); simpl f_ty.
      * apply ft_base, bt_simple, hs_int. red. vm_compute. split; discriminate.
      * apply ft_base, bt_simple, hs_string.
    + apply ft_none.
    + apply ft_base, bt_simple, hs_string.
Qed.

(** ** C22: see PropertiesSer2.v for single fields *)

(** All fields at once, and the attributes of the start tag. *)
Theorem C22_struct_output_partial :
  forall x E id td fs o vs l,
    struct_type E id td fs -> ya_flatten (t_attrs td) = false -> Written x E id o (VRec vs) l ->
    exists own child m parts aparts,
      l = WStart (qname (match o with Some q => q | None => ser_root td end)) (own ++ child) m :: concat parts ++ [WEnd None] /\
      Forall3 (FieldOut x E (t_attrs td) (VRec vs)) fs vs parts /\
      Forall3 (AttrOut x E (t_attrs td) (VRec vs)) fs vs aparts /\ own = concat aparts /\
      (flattens fs = false -> child = []).
Proof. exact struct_out. Qed.
Print Assumptions C22_struct_output_partial.

Definition tagF := fld "tag" (TVec (BSimple SString)).
Example C22_case :
  struct_type EP 0 person ([fldA "id" (a_attr ya0) (tint I32); fld "name" tstr] ++ tagF :: skipn 3 personFs) /\
  plain_element tagF /\ ~ suppressed x0 (annV ["x"; "y"] None) tagF (VVec [VStr "x"; VStr "y"]) /\
  Written x0 EP 0 None (annV ["x"; "y"] (Some pageV)) (annEvs ["x"; "y"] pageEvs) /\
  Written x0 EP 0 None (annV [] None) (annEvs [] []).
Proof.
  split; [split; reflexivity|]. split; [repeat split; reflexivity|].
  split; [intros [H|[(g & H & _)|(g & H & _)]]; discriminate|].
  split; apply C21_events; vm_compute; reflexivity.
Qed.

(** ** C23: fields that are left out

    An element field that is suppressed by any of the three attributes writes
    nothing; an attribute field suppressed by [skip_serializing_if] or
    [default] adds no attribute.  Missing for the full claim:
    [skip_serializing] on attributes, text fields and the attributes of
    flattened fields, where it is ignored (see the refutations). *)
Theorem C23_element_partial :
  forall x E id td fs1 f fs2 o vs1 v vs2 l,
    struct_type E id td (fs1 ++ f :: fs2) -> ya_flatten (t_attrs td) = false -> List.length vs1 = List.length fs1 ->
    ya_attribute (f_attrs f) = false -> ya_text (f_attrs f) = false ->
    suppressed x (VRec (vs1 ++ v :: vs2)) f v ->
    Written x E id o (VRec (vs1 ++ v :: vs2)) l ->
    Surrounded x E (t_attrs td) (VRec (vs1 ++ v :: vs2)) fs1 vs1 [] fs2 vs2 l.
Proof. exact suppressed_out. Qed.
Print Assumptions C23_element_partial.

Theorem C23_attribute_partial :
  forall x E id td fs1 f fs2 o vs1 v vs2 n a m body,
    struct_type E id td (fs1 ++ f :: fs2) -> flattens (fs1 ++ f :: fs2) = false ->
    ya_flatten (t_attrs td) = false -> List.length vs1 = List.length fs1 ->
    ya_attribute (f_attrs f) = true -> unneeded x (VRec (vs1 ++ v :: vs2)) f v ->
    Written x E id o (VRec (vs1 ++ v :: vs2)) (WStart n a m :: body) ->
    exists a1 a2, a = concat a1 ++ concat a2 /\
      Forall3 (AttrOut x E (t_attrs td) (VRec (vs1 ++ v :: vs2))) fs1 vs1 a1 /\
      Forall3 (AttrOut x E (t_attrs td) (VRec (vs1 ++ v :: vs2))) fs2 vs2 a2.
Proof. exact attr_suppressed_out. Qed.
Print Assumptions C23_attribute_partial.

Definition langF := fldA "lang" (a_default "default_string" ya0) tstr.
Definition skipper := struct_ "S" ya0
  [fldA "a" (a_attr (a_default "default_string" ya0)) tstr; fldA "b" (a_skip ya0) tstr; fld "c" tstr].
Example C23_case :
  suppressed x0 (annV ["x"] None) langF (VStr "my_default_value") /\
  unneeded x0 (VRec []) (fldA "a" (a_attr (a_default "default_string" ya0)) tstr) (VStr "my_default_value") /\
  ser_events x0 [skipper] 0 (VRec [VStr "my_default_value"; VStr "b"; VStr "c"])
  = SOk [WStart (nm "S") [] []; WStart (nm "c") [] []; WChars "c"; WEnd None; WEnd None] /\
  ser_events x0 [skipper] 0 (VRec [VStr "a"; VStr "b"; VStr "c"])
  = SOk [WStart (nm "S") [at1 "a" "a"] []; WStart (nm "c") [] []; WChars "c"; WEnd None; WEnd None].
Proof.
  split; [right; right; eexists; split; [reflexivity|apply eq_str]|].
  split; [right; eexists; split; [reflexivity|apply eq_str]|]. split; vm_compute; reflexivity.
Qed.

(** The full claim for attribute fields. *)
Definition C23_attribute_full : Prop :=
  forall x E id td fs i f v vs n a m body,
    struct_type E id td fs -> ya_flatten (t_attrs td) = false ->
    nth_error fs i = Some f -> nth_error vs i = Some v -> ya_attribute (f_attrs f) = true ->
    (forall j g, nth_error fs j = Some g -> field_name g = field_name f -> j = i) ->
    suppressed x (VRec vs) f v ->
    ser_events x E id (VRec vs) = SOk (WStart n a m :: body) ->
    forall c, In c a -> n_local (at_name c) <> field_name f.
Theorem C23_attribute_refuted : ~ C23_attribute_full.
Proof.
  intros H. set (f := fldA "a" (a_attr (a_skip ya0)) tstr).
  refine (H x0 [struct_ "S" ya0 [f]] 0 (struct_ "S" ya0 [f]) [f] 0 f (VStr "s") [VStr "s"] (nm "S") [at1 "a" "s"] [] [WEnd None]
    _ _ _ _ _ _ _ _ (at1 "a" "s") _ _); try reflexivity.
  - split; reflexivity.
  - intros [|[|j]] g Hg _; [reflexivity|discriminate|discriminate].
  - left; reflexivity.
  - left; reflexivity.
Qed.
Print Assumptions C23_attribute_refuted.

(** The full claim for text fields: nothing is written. *)
Definition C23_text_full : Prop :=
  forall x E id td f v n a m body,
    struct_type E id td [f] -> ya_flatten (t_attrs td) = false -> ya_attribute (f_attrs f) = false ->
    suppressed x (VRec [v]) f v ->
    ser_events x E id (VRec [v]) = SOk (WStart n a m :: body) -> body = [WEnd None].
Theorem C23_text_refuted : ~ C23_text_full.
Proof.
  intros H. set (f := fldA "a" (a_text (a_skip ya0)) tstr).
  assert (Hb : [WChars "s"; WEnd None] = [WEnd None]); [|discriminate].
  apply (H x0 [struct_ "S" ya0 [f]] 0 (struct_ "S" ya0 [f]) f (VStr "s") (nm "S") [] []); try reflexivity.
  - split; reflexivity.
  - left; reflexivity.
Qed.
Print Assumptions C23_text_refuted.

(** The full claim for flattened fields: neither content nor attributes. *)
Definition C23_flatten_full : Prop :=
  forall x E id td f v n a m body,
    struct_type E id td [f] -> ya_flatten (t_attrs td) = false -> ya_flatten (f_attrs f) = true ->
    suppressed x (VRec [v]) f v ->
    ser_events x E id (VRec [v]) = SOk (WStart n a m :: body) -> a = [] /\ body = [WEnd None].
Theorem C23_flatten_refuted : ~ C23_flatten_full.
Proof.
  intros H. set (f := fldA "a" (a_flatten (a_skip ya0)) (tuser 1)).
  set (c := struct_ "C" ya0 [fldA "k" (a_attr ya0) tstr]).
  destruct (H x0 [struct_ "S" ya0 [f]; c] 0 (struct_ "S" ya0 [f]) f (VRec [VStr "s"]) (nm "S") [at1 "k" "s"] [] [WEnd None]) as [Ha _];
    try reflexivity.
  - split; reflexivity.
  - left; reflexivity.
  - discriminate.
Qed.
Print Assumptions C23_flatten_refuted.

(** ** C24: write errors

    [sched k] tells whether the k-th write fails.  For types without Option or
    Vec payloads of numbers or bools: the first failing write ends the
    serialization with an error, after exactly the preceding events; without
    failing writes everything is written.  Missing for the full claim: those
    payloads (see the refutation). *)
Theorem C24_errors_reported_partial :
  forall x E id v l sched, reports_errors E -> ser_events x E id v = SOk l ->
    ((forall k, k < List.length l -> sched k = false) ->
       exists w, ser x E id v sched w_init = (SOk tt, w) /\ w_evs w = l) /\
    (forall n, n < List.length l -> (forall k, k < n -> sched k = false) -> sched n = true ->
       exists m w, ser x E id v sched w_init = (SErr m, w) /\ w_evs w = firstn n l /\ w_calls w = S n).
Proof. exact ser_errors. Qed.
Print Assumptions C24_errors_reported_partial.

Theorem C24_ok_means_written_partial :
  forall x E id v sched w, reports_errors E ->
    ser x E id v sched w_init = (SOk tt, w) ->
    ser_events x E id v = SOk (w_evs w) /\ w_calls w = List.length (w_evs w) /\
    forall k, k < w_calls w -> sched k = false.
Proof. exact ser_ok_accepted. Qed.
Print Assumptions C24_ok_means_written_partial.

Example C24_case :
  reports_errors EP /\
  ser x0 EP 0 (annV ["x"; "y"] None) (Nat.eqb 5) w_init
  = (SErr "io error", WState (firstn 5 (annEvs ["x"; "y"] [])) [nm "tag"; nm "Person"] 6 false None).
Proof.
  split; [|vm_compute; reflexivity].
  intros id td vars d H Hb. destruct id as [|[|[|id]]]; try discriminate; injection H as <-; discriminate.
Qed.

Definition C24_full : Prop :=
  forall x E id v sched w,
    ser x E id v sched w_init = (SOk tt, w) -> forall k, k < w_calls w -> sched k = false.

(** Enum variant [A(Vec<i32>)]: the number is not written, the result is Ok. *)
Definition numsT := enum_ "N" ya0 [vnew "A" (TVec (BSimple (SInt I32)))] (VVar 0 [VVec []]).
Theorem C24_refuted : ~ C24_full.
Proof.
  intros H. specialize (H x0 [numsT] 0 (VVar 0 [VVec [VInt 5]]) (Nat.eqb 2)
    (snd (ser x0 [numsT] 0 (VVar 0 [VVec [VInt 5]]) (Nat.eqb 2) w_init))).
  assert (Hx : Nat.eqb 2 2 = false); [|discriminate]. apply H; vm_compute; [reflexivity|]. repeat constructor.
Qed.
Print Assumptions C24_refuted.
