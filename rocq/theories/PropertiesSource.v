(** * C47: a field gets a value only from something of its name.

    Vocabulary: SpecSource.v ([supplies]), SpecStruct.v ([missing_value]). *)
From Verif Require Import Str Num Xml XmlText Reader Schema De Ser Conform SpecTree SpecStruct SpecSource SourceProofs
  PropertiesStruct.
Open Scope list_scope.

(** Whatever the event source, well-formed or not: if nothing in it has
    something for the field, an accepted value holds the missing value.  The
    other fields may be of any kind, flattened ones included. *)
Theorem C47_unnamed_field :
  forall x E fuel id td fs i f s v, struct_type E id td fs -> nth_error fs i = Some f -> flat_field f = false ->
    (forall e, In e (s_evs s) -> ~ supplies (t_attrs td) f e) ->
    from_events x E fuel id s = OOk v ->
    exists vs w, v = VRec vs /\ nth_error vs i = Some w /\ missing_value x f = Some w.
Proof. exact unnamed_field. Qed.
Print Assumptions C47_unnamed_field.

(** So a document without anything for a required field is never accepted. *)
Theorem C47_required_field :
  forall x E fuel id td fs i f s v, struct_type E id td fs -> nth_error fs i = Some f -> flat_field f = false ->
    missing_value x f = None ->
    (forall e, In e (s_evs (parse_text s)) -> ~ supplies (t_attrs td) f e) ->
    from_str x E fuel id s <> OOk v.
Proof. exact unnamed_required. Qed.
Print Assumptions C47_required_field.

Ltac nothing_for := apply suppliesb_ok; vm_compute; reflexivity.

(** The default of [lang], no [tag] and no [page], in a document whose unknown
    elements and attributes have other names. *)
Example C47_case :
  let s := "<p id='7' lang='fr'><name>Ann</name><x><Tag k='1'/>text<pages/></x></p>" in
  (forall i, In i [2; 4; 6] -> exists f, nth_error personFs i = Some f /\ flat_field f = false /\
     forall e, In e (s_evs (parse_text s)) -> ~ supplies ya0 f e) /\
  from_str x0 EP 40 0 s = OOk (VRec [VInt 7; VStr "Ann"; VVec []; VOpt None; VOpt None; VOpt None; VStr "my_default_value"]).
Proof.
  cbv zeta. split; [|vm_compute; reflexivity].
  intros i Hi. each_in Hi; (eexists; split; [reflexivity|split; [reflexivity|nothing_for]]).
Qed.
Example C47_required_case :
  let s := "<p id='7'><x><Name>Ann</Name></x></p>" in
  (exists f, nth_error personFs 1 = Some f /\ flat_field f = false /\ missing_value x0 f = None /\
     forall e, In e (s_evs (parse_text s)) -> ~ supplies ya0 f e) /\
  from_str x0 EP 40 0 s = OErr "name is a required field of Person".
Proof.
  cbv zeta. split; [|vm_compute; reflexivity].
  eexists; split; [reflexivity|split; [reflexivity|split; [reflexivity|nothing_for]]].
Qed.
