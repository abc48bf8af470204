(** * The [Serializer] runtime and the code generated by
      [#[derive(YaSerialize)]].

    yaserde/src/ser/mod.rs, yaserde/src/lib.rs:174-217,
    yaserde/src/primitives.rs:5-34, yaserde_derive/src/ser/*.rs. *)
From Verif Require Import Str Num Xml XmlText Reader Schema.

(** [Serializer { writer, skip_start_end, start_event_name }]
    (ser/mod.rs:57-61) together with the observable state of the
    [EventWriter]: accepted events, open element names, number of [write]
    calls made so far. *)
Record wstate := WState {
  w_evs : list wevent;
  w_stack : list name;
  w_calls : nat;
  w_skip : bool;
  w_name : option string }.

(** [Serializer::new] (ser/mod.rs:64-70). *)
Definition w_init : wstate := WState [] [] 0 false None.

(** [SStuck]: the value does not have the shape of its type, or fuel ran
    out; never a behaviour of the Rust code. *)
Inductive sres (A : Type) := SOk (a : A) | SErr (msg : string) | SStuck.
Arguments SOk {A} _.
Arguments SErr {A} _.
Arguments SStuck {A}.

Definition sbind_pure {A B} (r : sres A) (f : A -> sres B) : sres B :=
  match r with SOk a => f a | SErr m => SErr m | SStuck => SStuck end.

(** Serializer code: a state monad over [wstate]; [sched n] tells whether
    the n-th write of the underlying [io::Write] fails. *)
Definition sm (A : Type) := (nat -> bool) -> wstate -> sres A * wstate.

Definition sret {A} (a : A) : sm A := fun _ w => (SOk a, w).
Definition sfail {A} (m : string) : sm A := fun _ w => (SErr m, w).
Definition sstuck {A} : sm A := fun _ w => (SStuck, w).
Definition sbind {A B} (p : sm A) (f : A -> sm B) : sm B :=
  fun sched w =>
    match p sched w with
    | (SOk a, w') => f a sched w'
    | (SErr m, w') => (SErr m, w')
    | (SStuck, w') => (SStuck, w')
    end.
Definition slift {A} (r : sres A) : sm A := fun _ w => (r, w).

Declare Scope ser_scope.
Delimit Scope ser_scope with ser.
Notation "'do*' x ':=' p 'in' q" := (sbind p (fun x => q))
  (at level 61, x pattern, p at next level, right associativity) : ser_scope.
Notation "p ;;; q" := (sbind p (fun _ => q))
  (at level 61, right associativity) : ser_scope.
Open Scope ser_scope.

(** [Serializer::write] (ser/mod.rs:111-116). *)
Definition write (e : wevent) : sm unit :=
  fun sched w =>
    if sched (w_calls w) then
      (SErr "io error", WState (w_evs w) (w_stack w) (S (w_calls w)) (w_skip w) (w_name w))
    else
      let '(st, ok) := emit_check (w_stack w) e in
      if ok then (SOk tt, WState (w_evs w ++ [e]) st (S (w_calls w)) (w_skip w) (w_name w))
      else (SErr "emitter error", WState (w_evs w) st (S (w_calls w)) (w_skip w) (w_name w)).

(** ser/mod.rs:95-109. *)
Definition get_skip : sm bool := fun _ w => (SOk (w_skip w), w).
Definition get_name : sm (option string) := fun _ w => (SOk (w_name w), w).
Definition set_skip (b : bool) : sm unit :=
  fun _ w => (SOk tt, WState (w_evs w) (w_stack w) (w_calls w) b (w_name w)).
Definition set_name (o : option string) : sm unit :=
  fun _ w => (SOk tt, WState (w_evs w) (w_stack w) (w_calls w) (w_skip w) o).

(** A write whose error is dropped: [let _ret = writer.write(event);]
    (yaserde/src/lib.rs:178-181). *)
Definition swallow (p : sm unit) : sm unit :=
  fun sched w => match p sched w with
                 | (SErr _, w') => (SOk tt, w')
                 | r => r
                 end.

Definition start_plain (q : string) : wevent := WStart (qname q) [] [].

Fixpoint smap {A} (f : A -> sm unit) (l : list A) : sm unit :=
  match l with
  | [] => sret tt
  | a :: r => f a ;;; smap f r
  end.

Definition of_opt {A} (o : option A) : sm A :=
  match o with Some a => sret a | None => sstuck end.

(** [enclose_xml_event] (ser/element.rs:17-30). *)
Definition enclose (q : string) (text : string) : sm unit :=
  write (start_plain q) ;;; write (WChars text) ;;; write (WEnd None).

Definition fcond (x : ext) (self v : value) (f : field) (honour_skip : bool) : bool :=
  (* condition_generator (ser/element.rs:45-66) and, without the
     skip_serializing test, ser_wrap_default_attribute (field.rs:173-206) *)
  ((if honour_skip then negb (ya_skip (f_attrs f)) else true)
   && (match ya_skip_if (f_attrs f) with
       | Some g => negb (x_skip_if x g self v)
       | None => true
       end)
   && (match ya_default (f_attrs f) with
       | Some d => negb (value_eqb x v (x_default x d))
       | None => true
       end))%bool.

(** [generate_namespaces_definition] (ser/namespace.rs:5-21). *)
Definition own_ns (ra : yattr) : nsmap :=
  fold_left
    (fun m pu => if opt_eqb (ya_default_namespace ra) (Some (fst pu))
                 then ns_put m "" (snd pu) else ns_put m (fst pu) (snd pu))
    (ya_namespaces ra) [].

Section Serialize.
  Variable x : ext.
  Variable E : env.
  (** [serialize] and [serialize_attributes] of the other types. *)
  Variable rec : nat -> value -> sm unit.
  Variable rec_attrs : nat -> value -> sres (list attr * nsmap).

  (** [to_string_content] (ser/mod.rs:38-55): fresh serializer without
      declaration, skipping the outer tag; an in-memory writer never fails. *)
  Definition to_string_content (id : nat) (v : value) : sres string :=
    match rec id v (fun _ => false) (WState [] [] 0 true None) with
    | (SOk _, w) => SOk (emit_text (EConf false None) (w_evs w))
    | (SErr m, _) => SErr m
    | (SStuck, _) => SStuck
    end.

  (** Text of an attribute value of base type [b]. *)
  Definition attr_text (b : base) (v : value) : sres string :=
    match b with
    | BSimple s => match show_simple x s v with Some t => SOk t | None => SStuck end
    | BUser id => to_string_content id v
    end.

  (** One attribute field (ser/expand_struct.rs:25-122); [None]: nothing. *)
  Definition attr_of (ra : yattr) (self : value) (f : field) (v : value) : sres (list attr) :=
    let nm := qname (field_qname ra f) in
    let c := fcond x self v f false in
    match f_ty f, v with
    | TBase b, _ =>
        sbind_pure (attr_text b v) (fun t => SOk (if c then [Attr nm t] else []))
    | TOpt b, VOpt None => SOk []
    | TOpt b, VOpt (Some w) =>
        sbind_pure (attr_text b w) (fun t => SOk (if c then [Attr nm t] else []))
    | TVec _, VVec _ => SOk []     (* "TODO" in the source *)
    | _, _ => SStuck
    end.

  (** [#append_attributes] (ser/expand_struct.rs:16-139): attributes of the
      struct itself, and attributes and namespaces of flattened children. *)
  Fixpoint append_attrs (ra : yattr) (self : value) (fs : list field) (vs : list value)
    : sres (list attr * list attr * nsmap) :=
    match fs, vs with
    | [], [] => SOk ([], [], [])
    | f :: fr, v :: vr =>
        if ya_attribute (f_attrs f) then
          sbind_pure (attr_of ra self f v) (fun own =>
          sbind_pure (append_attrs ra self fr vr) (fun '(o, c, m) => SOk ((own ++ o)%list, c, m)))
        else
          match ya_flatten (f_attrs f), f_ty f with
          | true, TBase (BUser id) =>
              sbind_pure (rec_attrs id v) (fun '(ca, cn) =>
              sbind_pure (append_attrs ra self fr vr) (fun '(o, c, m) =>
                SOk (o, (ca ++ c)%list, ns_extend cn m)))
          | _, _ => append_attrs ra self fr vr
          end
    | _, _ => SStuck
    end.

  (** [YaSerialize::serialize(item, writer)?] for an item of base type [b];
      simple types use serialize_type! (lib.rs:174-217). *)
  Definition ser_item (b : base) (v : value) : sm unit :=
    match b with
    | BUser id => rec id v
    | BSimple SString => sstuck   (* String does not implement YaSerialize *)
    | BSimple s => do* t := of_opt (show_simple x s v) in swallow (write (WChars t))
    end.

  (** One element field (ser/expand_struct.rs:141-356). *)
  Definition ser_field (ra : yattr) (self : value) (f : field) (v : value) : sm unit :=
    let q := field_qname ra f in
    let fa := f_attrs f in
    if ya_attribute fa then sret tt
    else if ya_text fa then
      match f_ty f, v with
      | TBase (BSimple SString), VStr t => write (WChars t)
      | TOpt (BSimple SString), VOpt None => write (WChars "")
      | TOpt (BSimple SString), VOpt (Some (VStr t)) => write (WChars t)
      | _, _ => sstuck
      end
    else if negb (fcond x self v f true) then sret tt
    else if ya_cdata fa then
      match f_ty f, v with
      | TBase (BSimple SString), VStr t =>
          write (start_plain q) ;;; write (WCData t) ;;; write (WEnd None)
      | _, _ => sstuck
      end
    else
      let user id w :=
        (if ya_flatten fa then set_name None ;;; set_skip true
         else set_name (Some q) ;;; set_skip false) ;;;
        rec id w in
      let one s w := do* t := of_opt (show_simple x s w) in enclose q t in
      match f_ty f, v with
      | TBase (BSimple s), _ => one s v
      | TOpt _, VOpt None => sret tt
      | TOptVec (BSimple _), VOpt None => sret tt
      | TOpt (BSimple s), VOpt (Some w) => one s w
      | TOptVec (BSimple s), VOpt (Some (VVec l)) => smap (one s) l
      | TOpt (BUser id), VOpt (Some w) => user id w
      | TBase (BUser id), _ => user id v
      | TVec (BSimple s), VVec l => smap (one s) l
      | TVec (BUser id), VVec l => smap (user id) l
      | _, _ => sstuck
      end.

  Fixpoint ser_fields (ra : yattr) (self : value) (fs : list field) (vs : list value) : sm unit :=
    match fs, vs with
    | [], [] => sret tt
    | f :: fr, v :: vr => ser_field ra self f v ;;; ser_fields ra self fr vr
    | _, _ => sstuck
    end.

  (** ** Enums (ser/expand_enum.rs:115-323) *)

  (** Fields of a struct-like variant (expand_enum.rs:148-229). *)
  Definition ser_named_field (ra : yattr) (f : field) (v : value) : sm unit :=
    let q := field_qname ra f in
    match f_ty f, v with
    | TBase (BSimple s), _ => do* t := of_opt (show_simple x s v) in enclose q t
    | TBase (BUser id), _ => set_name (Some q) ;;; set_skip false ;;; rec id v
    | TVec b, VVec l =>
        smap (fun w => set_name (Some q) ;;; set_skip false ;;; ser_item b w) l
    | TOpt _, VOpt _ | TOptVec _, VOpt _ => sret tt
    | _, _ => sstuck
    end.

  Fixpoint ser_named_fields (ra : yattr) (fs : list field) (vs : list value) : sm unit :=
    match fs, vs with
    | [], [] => sret tt
    | f :: fr, v :: vr => ser_named_field ra f v ;;; ser_named_fields ra fr vr
    | _, _ => sstuck
    end.

  (** [write_element] around an item (expand_enum.rs:239-272). *)
  Definition write_item (q : string) (b : base) (v : value) : sm unit :=
    write (start_plain q) ;;;
    (match b, v with
     | BSimple SString, VStr t => write (WChars t)
     | BSimple SString, _ => sstuck
     | _, _ => set_name None ;;; set_skip true ;;; ser_item b v
     end) ;;;
    write (WEnd None).

  (** The single payload of a tuple-like variant (expand_enum.rs:231-311). *)
  Definition ser_payload (q : string) (flat : bool) (t : fty) (v : value) : sm unit :=
    match t, v with
    | TBase (BSimple s), _ => do* tx := of_opt (show_simple x s v) in enclose q tx
    | TBase (BUser id), _ =>
        if flat then rec id v else write_item q (BUser id) v
    | TOpt b, VOpt None => sret tt
    | TOpt b, VOpt (Some w) => write_item q b w
    | TVec b, VVec l => smap (write_item q b) l
    | _, _ => sstuck
    end.

  Definition ser_variant (ra : yattr) (vr : variant) (l : list value) : sm unit :=
    let q := variant_qname ra vr in
    match v_body vr, l with
    | VbUnit, [] =>
        match ya_tag ra with Some _ => sret tt | None => write (WChars q) end
    | VbNew fl t, [v] => ser_payload q (ya_flatten (v_attrs vr) || fl) t v
    | VbNamed fs, vs => ser_named_fields ra fs vs
    | _, _ => sstuck
    end.

  (** Own and child attributes of any derived type
      ([#append_attributes] of implement_serializer).  Simplification: the
      branches for [attribute] and flattened fields of variants
      (ser/expand_enum.rs:49-95) are left out, see DESIGN.md. *)
  Definition type_attrs (td : typedef) (v : value) : sres (list attr * list attr * nsmap) :=
    match t_body td, v with
    | DStruct fs, VRec vs => append_attrs (t_attrs td) v fs vs
    | DEnum vars _, VVar i _ =>
        (* add_tag (ser/expand_enum.rs:28-42) *)
        match nth_error vars i with
        | None => SStuck
        | Some vr =>
            SOk ([],
                 match ya_tag (t_attrs td) with
                 | Some t => [Attr (Name t None None) (xml_element_name (v_attrs vr) (v_label vr))]
                 | None => []
                 end, [])
        end
    | _, _ => SStuck
    end.

  Definition inspector (td : typedef) (v : value) : sm unit :=
    match t_body td, v with
    | DStruct fs, VRec vs => ser_fields (t_attrs td) v fs vs
    | DEnum vars _, VVar i l =>
        match nth_error vars i with
        | Some vr => ser_variant (t_attrs td) vr l
        | None => sstuck
        end
    | _, _ => sstuck
    end.

  (** [serialize] (implement_serializer.rs:24-72). *)
  Definition ser_derived (td : typedef) (v : value) : sm unit :=
    do* skip := get_skip in
    let open := (negb (ya_flatten (t_attrs td)) && negb skip)%bool in
    (if open then
       do* o := get_name in
       do* r := slift (type_attrs td v) in
       let '(own, child, cns) := r in
       write (WStart (qname (opt_default (ser_root td) o)) (own ++ child)%list
                     (ns_extend (own_ns (t_attrs td)) cns))
     else sret tt) ;;;
    inspector td v ;;;
    (if open then write (WEnd None) else sret tt).

  Definition quoted (s : string) : string := """" +++ s +++ """".

  (** [map_err]. *)
  Definition with_err (p : sm unit) (m : string) : sm unit :=
    fun sched w => match p sched w with
                   | (SErr _, w') => (SErr m, w')
                   | r => r
                   end.

  (** [serialize_primitives] (yaserde/src/primitives.rs:5-34).
      Simplification: [{name:?}] is rendered without escaping. *)
  Definition ser_prim (td : typedef) (k : primkind) (v : value) : sm unit :=
    do* o := get_name in
    let nm := opt_default (t_name td) o in
    do* skip := get_skip in
    (if skip then sret tt
     else with_err (write (start_plain nm)) ("Start element " +++ quoted nm +++ " write failed")) ;;;
    do* t := of_opt (show_prim x (t_name td) k v) in
    with_err (write (WChars t)) ("Element value " +++ quoted nm +++ " write failed") ;;;
    (if skip then sret tt
     else with_err (write (WEnd None)) ("End element " +++ quoted nm +++ " write failed")).

  Definition ser_body (id : nat) (v : value) : sm unit :=
    match nth_error E id with
    | None => sstuck
    | Some td =>
        match t_body td with
        | DPrim k => ser_prim td k v
        | _ => ser_derived td v
        end
    end.

  (** [serialize_attributes] (implement_serializer.rs:74-106), called with
      empty arguments; primitives return their arguments. *)
  Definition attrs_body (id : nat) (v : value) : sres (list attr * nsmap) :=
    match nth_error E id with
    | None => SStuck
    | Some td =>
        match t_body td with
        | DPrim _ => SOk ([], [])
        | _ =>
            sbind_pure (type_attrs td v) (fun '(own, child, cns) =>
              SOk ((own ++ child)%list, ns_extend (own_ns (t_attrs td)) cns))
        end
    end.
End Serialize.

Definition sfuns := ((nat -> value -> sm unit) * (nat -> value -> sres (list attr * nsmap)))%type.

(** All types together; recursion goes to strictly smaller values, [fuel]
    bounds the depth. *)
Fixpoint ser_all (x : ext) (E : env) (fuel : nat) : sfuns :=
  match fuel with
  | O => (fun _ _ => sstuck, fun _ _ => SStuck)
  | S f =>
      let r := ser_all x E f in
      (ser_body x E (fst r) (snd r), attrs_body x E (fst r) (snd r))
  end.

(** Nesting depth of a value. *)
Fixpoint vdepth (v : value) : nat :=
  let fix mx (l : list value) : nat :=
      match l with [] => 0 | a :: r => Nat.max (vdepth a) (mx r) end in
  match v with
  | VOpt (Some w) => S (vdepth w)
  | VVec l | VRec l | VVar _ l => S (mx l)
  | _ => 1
  end.

(** [<T as YaSerialize>::serialize]. *)
Definition ser (x : ext) (E : env) (id : nat) (v : value) : sm unit :=
  fst (ser_all x E (S (vdepth v))) id v.

(** [Config] (ser/mod.rs:119-133). *)
Record config := Config { c_indent : bool; c_decl : bool; c_indent_string : option string }.
Definition config0 : config := Config false true None.

(** [new_from_writer] (ser/mod.rs:72-85): xml-rs' default indent string is
    two spaces. *)
Definition econf_of (c : config) : econf :=
  EConf (c_decl c)
        (if c_indent c then Some (opt_default "  " (c_indent_string c)) else None).

(** Events written by serializing [v] with an in-memory writer. *)
Definition ser_events (x : ext) (E : env) (id : nat) (v : value) : sres (list wevent) :=
  match ser x E id v (fun _ => false) w_init with
  | (SOk _, w) => SOk (w_evs w)
  | (SErr m, _) => SErr m
  | (SStuck, _) => SStuck
  end.

(** [to_string_with_config] / [to_string] (ser/mod.rs:10-24). *)
Definition to_string_with_config (x : ext) (E : env) (c : config) (id : nat) (v : value)
  : sres string :=
  sbind_pure (ser_events x E id v) (fun l => SOk (emit_text (econf_of c) l)).
Definition to_string (x : ext) (E : env) (id : nat) (v : value) : sres string :=
  to_string_with_config x E config0 id v.
