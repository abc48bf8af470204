(** * C75: one serializer for several values.

    Vocabulary: SpecReuse.v. *)
From Verif Require Import Str Num Xml XmlText Schema Ser Conform SpecTree SpecText SpecEnc SpecSer SpecReuse ReuseProofs.
Open Scope list_scope.

(** ** In full
    Values serialized one after the other with one serializer come out as with
    a serializer each. *)
Definition C75_full : Prop :=
  forall x E jobs ls, alone x E jobs ls -> exists w,
    one_by_one x E jobs (fun _ => false) w_init = (SOk tt, w) /\ w_evs w = concat ls.

(** [Outer { part: Part }]: the name set for the field stays behind, and the
    second value gets it for its own element. *)
Definition E75 : env :=
  [struct_ "Part" ya0 [fld "n" (tint I32)]; struct_ "Outer" ya0 [fld "part" (tuser 0)]].
Definition v75 (n : Z) : value := VRec [VRec [VInt n]].
Definition l75 (name n : string) : list wevent :=
  [start_plain name; start_plain "part"; start_plain "n"; WChars n; WEnd None; WEnd None; WEnd None].
Theorem C75_refuted : ~ C75_full.
Proof.
  intros H. destruct (H x0 E75 [(1, v75 1); (1, v75 2)] [l75 "Outer" "1"; l75 "Outer" "2"]) as (w & H1 & H2).
  - constructor; [vm_compute; reflexivity|]. constructor; [vm_compute; reflexivity|constructor].
  - assert (Hx : w_evs (snd (one_by_one x0 E75 [(1, v75 1); (1, v75 2)] (fun _ => false) w_init)) = l75 "Outer" "1" ++ l75 "part" "2") by (vm_compute; reflexivity).
    rewrite H1 in Hx. cbn [snd] in Hx. rewrite H2 in Hx. vm_compute in Hx. discriminate Hx.
Qed.
Print Assumptions C75_refuted.

(** ** Types that leave the flags alone
    Every value but the last is of a type without parts of user type.  The
    serializer may have been used before.
    Missing for the full claim: the others, for which it is false. *)
Theorem C75_leaf_partial :
  forall x E js p ls, alone x E (js ++ [p]) ls ->
    (forall id v, In (id, v) js -> exists td, nth_error E id = Some td /\ leaf_type td) ->
    forall w, w_skip w = false -> w_name w = None -> exists w',
      one_by_one x E (js ++ [p]) (fun _ => false) w = (SOk tt, w') /\ w_evs w' = w_evs w ++ concat ls /\ w_stack w' = w_stack w.
Proof. exact reuse_leaf. Qed.
Print Assumptions C75_leaf_partial.

(** ** Resetting the flags
    With [set_start_event_name(None)] and [set_skip_start_end(false)] in front
    of each value the claim holds for all types, whatever the serializer did
    before. *)
Theorem C75_reset :
  forall x E jobs ls, alone x E jobs ls -> forall w, exists w',
    one_by_one_reset x E jobs (fun _ => false) w = (SOk tt, w') /\ w_evs w' = w_evs w ++ concat ls /\ w_stack w' = w_stack w.
Proof. exact reuse_reset. Qed.
Print Assumptions C75_reset.

(** ** Exactly what is written
    For all values: each one is written in the mode in which the one before
    leaves the serializer, and there is an error exactly if there is no
    document for one of them in its mode. *)
Theorem C75_in_turn :
  forall x E jobs w,
    match in_turn x E jobs (if w_skip w then Inside else Under (w_name w)) with
    | Some ts => exists w', one_by_one x E jobs (fun _ => false) w = (SOk tt, w') /\ w_evs w' = w_evs w ++ flat_map wtree ts
    | None => forall w', one_by_one x E jobs (fun _ => false) w <> (SOk tt, w')
    end.
Proof. exact reuse_in_turn. Qed.
Print Assumptions C75_in_turn.

(** The claim holds for all values, of any type, that leave nothing behind
    (such as those with empty lists or without optional parts); the last one
    may be any.
    Missing for the full claim: the others, for which it is false. *)
Theorem C75_clean_partial :
  forall x E js p ls, alone x E (js ++ [p]) ls ->
    (forall id v, In (id, v) js -> leftover x E id v (Under None) = Under None) ->
    exists w, one_by_one x E (js ++ [p]) (fun _ => false) w_init = (SOk tt, w) /\ w_evs w = concat ls.
Proof. exact reuse_clean. Qed.
Print Assumptions C75_clean_partial.

(** [Bag { parts: Vec<Part>, tail: Option<Part> }]: an empty bag leaves
    nothing behind, others the name of the last part written. *)
Definition EBag : env :=
  [struct_ "Part" ya0 [fld "n" (tint I32)];
   struct_ "Bag" ya0 [fld "parts" (TVec (BUser 0)); fld "tail" (TOpt (BUser 0))]].
Definition bag (l : list Z) (o : option Z) : value :=
  VRec [VVec (map (fun n => VRec [VInt n]) l); VOpt (option_map (fun n => VRec [VInt n]) o)].
Example C75_case_bag :
  leftover x0 EBag 1 (bag [] None) (Under None) = Under None /\
  leftover x0 EBag 1 (bag [1; 2]%Z None) (Under None) = Under (Some "parts") /\
  leftover x0 EBag 1 (bag [1; 2]%Z (Some 3%Z)) (Under None) = Under (Some "tail") /\
  (exists ls, alone x0 EBag ([(1, bag [] None)] ++ [(1, bag [1]%Z (Some 2%Z))]) ls) /\
  omap (fun ts => emit_text (EConf false None) (flat_map wtree ts))
    (in_turn x0 EBag [(1, bag [] None); (1, bag [1]%Z None); (1, bag [] None)] (Under None)) =
  Some "<Bag /><Bag><parts><n>1</n></parts></Bag><parts />".
Proof.
  split; [vm_compute; reflexivity|]. split; [vm_compute; reflexivity|]. split; [vm_compute; reflexivity|]. split; [|vm_compute; reflexivity].
  eexists. repeat (constructor; [vm_compute; reflexivity|]). constructor.
Qed.

(** Two parts and an outer one; two outer ones with a reset. *)
Example C75_case :
  alone x0 E75 ([(0, VRec [VInt 1]); (0, VRec [VInt 2])] ++ [(1, v75 3)])
    [[start_plain "Part"; start_plain "n"; WChars "1"; WEnd None; WEnd None];
     [start_plain "Part"; start_plain "n"; WChars "2"; WEnd None; WEnd None]; l75 "Outer" "3"] /\
  (exists td, nth_error E75 0 = Some td /\ leaf_type td) /\
  alone x0 E75 [(1, v75 1); (1, v75 2)] [l75 "Outer" "1"; l75 "Outer" "2"].
Proof.
  split; [repeat (constructor; [vm_compute; reflexivity|]); constructor|]. split.
  - eexists. split; [reflexivity|]. intros f [<-|[]]. right. exact I.
  - repeat (constructor; [vm_compute; reflexivity|]). constructor.
Qed.
