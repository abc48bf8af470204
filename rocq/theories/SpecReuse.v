(** * One serializer for several values: vocabulary (C75). *)
From Verif Require Import Str Num Xml XmlText Schema Ser SpecTree SpecText SpecEnc.
Open Scope list_scope.

(** A client that writes one value after the other with one [Serializer]
    ([Serializer::new], ser/mod.rs:64-70, and [serialize] of each type). *)
Definition one_by_one (x : ext) (E : env) (jobs : list (nat * value)) : sm unit :=
  smap (fun p => ser x E (fst p) (snd p)) jobs.
(** The same, with [set_start_event_name(None)] and [set_skip_start_end(false)]
    (ser/mod.rs:99-109) in front of each value. *)
Definition one_by_one_reset (x : ext) (E : env) (jobs : list (nat * value)) : sm unit :=
  smap (fun p => set_name None ;;; set_skip false ;;; ser x E (fst p) (snd p)) jobs.

(** The events of each value, as from a serializer of its own. *)
Definition alone (x : ext) (E : env) (jobs : list (nat * value)) (ls : list (list wevent)) : Prop :=
  Forall2 (fun p l => ser_events x E (fst p) (snd p) = SOk l) jobs ls.

(** Types without parts of user type in elements of their own, and without
    options and lists in variants. *)
Definition simple_ty (t : fty) : Prop :=
  match t with TBase (BSimple _) | TOpt (BSimple _) | TVec (BSimple _) | TOptVec (BSimple _) => True | _ => False end.
Definition leaf_type (td : typedef) : Prop :=
  match t_body td with
  | DPrim _ => True
  | DStruct fs => forall f, In f fs -> ya_attribute (f_attrs f) = true \/ simple_ty (f_ty f)
  | DEnum vars _ => forall vr, In vr vars -> match v_body vr with
      | VbUnit => True
      | VbNew _ (TBase (BSimple _)) => True
      | _ => False
      end
  end.

(** ** What stays behind
    The name and the mode ([how], SpecEnc.v) in which a serializer is after
    writing a value: that of the last part of user type, or of the last item
    of a list or option in a variant, if there is one. *)
Section Leftover.
  Variable x : ext.
  Variable E : env.
  Variable left : nat -> value -> how -> how.

  Definition left_field (ra : yattr) (self : value) (f : field) (v : value) (h : how) : how :=
    let asked := if ya_flatten (f_attrs f) then Inside else Under (Some (field_qname ra f)) in
    if (ya_attribute (f_attrs f) || ya_text (f_attrs f) || left_out x self v f true || ya_cdata (f_attrs f))%bool then h
    else match f_ty f, v with
    | TBase (BUser id), _ => left id v asked
    | TOpt (BUser id), VOpt (Some w) => left id w asked
    | TVec (BUser id), VVec l => fold_left (fun _ w => left id w asked) l h
    | _, _ => h
    end.
  Fixpoint left_fields (ra : yattr) (self : value) (fs : list field) (vs : list value) (h : how) : how :=
    match fs, vs with
    | f :: fr, v :: vr => left_fields ra self fr vr (left_field ra self f v h)
    | _, _ => h
    end.

  (** Struct-like variants. *)
  Definition left_named_field (ra : yattr) (f : field) (v : value) (h : how) : how :=
    let asked := Under (Some (field_qname ra f)) in
    match f_ty f, v with
    | TBase (BUser id), _ => left id v asked
    | TVec (BUser id), VVec l => fold_left (fun _ w => left id w asked) l h
    | TVec (BSimple _), VVec (_ :: _) => asked
    | _, _ => h
    end.
  Fixpoint left_named_fields (ra : yattr) (fs : list field) (vs : list value) (h : how) : how :=
    match fs, vs with
    | f :: fr, v :: vr => left_named_fields ra fr vr (left_named_field ra f v h)
    | _, _ => h
    end.

  (** Payloads. *)
  Definition left_item (b : base) (v : value) (h : how) : how :=
    match b with
    | BSimple SString => h
    | BSimple _ => Inside
    | BUser id => left id v Inside
    end.
  Definition left_payload (flat : bool) (t : fty) (v : value) (h : how) : how :=
    match t, v with
    | TBase (BUser id), _ => left id v (if flat then h else Inside)
    | TOpt b, VOpt (Some w) => left_item b w h
    | TVec b, VVec l => fold_left (fun h' w => left_item b w h') l h
    | _, _ => h
    end.

  Definition left_type (id : nat) (v : value) (h : how) : how :=
    match nth_error E id with
    | None => h
    | Some td =>
        match t_body td, v with
        | DStruct fs, VRec vs => left_fields (t_attrs td) v fs vs h
        | DEnum vars _, VVar i l =>
            match nth_error vars i with
            | Some vr =>
                match v_body vr, l with
                | VbNew fl t, [w] => left_payload (ya_flatten (v_attrs vr) || fl) t w h
                | VbNamed fs, _ => left_named_fields (t_attrs td) fs l h
                | _, _ => h
                end
            | None => h
            end
        | _, _ => h
        end
    end.
End Leftover.

(** All types together; [n] bounds the nesting depth of the value. *)
Fixpoint left_all (x : ext) (E : env) (n : nat) : nat -> value -> how -> how :=
  match n with
  | O => fun _ _ h => h
  | S k => left_type x E (left_all x E k)
  end.
Definition leftover (x : ext) (E : env) (id : nat) (v : value) (h : how) : how := left_all x E (S (height v)) id v h.

(** The trees of values written one after the other, each in the mode in which
    the one before leaves the serializer. *)
Fixpoint in_turn (x : ext) (E : env) (jobs : list (nat * value)) (h : how) : option (list wnode) :=
  match jobs with
  | [] => Some []
  | (id, v) :: r => oapp (encode x E id v h) (in_turn x E r (leftover x E id v h))
  end.
