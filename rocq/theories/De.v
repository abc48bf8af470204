(** * The code generated by [#[derive(YaDeserialize)]].

    yaserde_derive/src/de/expand_struct.rs, yaserde_derive/src/de/expand_enum.rs,
    yaserde/src/primitives.rs:36-51.  [de fuel id] is the generated
    [deserialize] function of type [id], as a client program of the
    [Deserializer]. *)
From Verif Require Import Str Num Xml XmlText Reader Schema.

(** The local variables [__x_value] of the generated function:
    [Option<T>] (build_default_value.rs:5-20) or [Vec<T>]
    (build_default_value.rs:22-37). *)
Inductive slot := SOne (o : option value) | SMany (l : list value).

(** expand_struct.rs:22-48. *)
Definition init_slot (t : fty) : slot :=
  match t with TVec _ => SMany [] | _ => SOne None end.

(** [= Some(value)] or [.push(value)] (expand_struct.rs:188-199). *)
Definition put_slot (v : value) (s : slot) : slot :=
  match s with
  | SOne _ => SOne (Some v)
  | SMany l => SMany (l ++ [v])
  end.

Fixpoint upd {A} (i : nat) (g : A -> A) (l : list A) : list A :=
  match l, i with
  | [], _ => []
  | a :: r, O => g a :: r
  | a :: r, S k => a :: upd k g r
  end.

Definition fbase (t : fty) : base :=
  match t with TBase b | TOpt b | TVec b | TOptVec b => b end.

(** Which fields get a match arm: [!is_attribute && !is_flatten]
    (expand_struct.rs:147).  An [Option<Vec>] field is rejected by the macro. *)
Definition is_elem_field (f : field) : bool :=
  (negb (ya_attribute (f_attrs f)) && negb (ya_flatten (f_attrs f)))%bool.

(** [match (namespace, local_name) { .. }]: first arm that fits. *)
Fixpoint find_field (ra : yattr) (fs : list field) (i : nat) (ns local : string)
  : option (nat * field) :=
  match fs with
  | [] => None
  | f :: r =>
      if (is_elem_field f && String.eqb (field_ns ra f) ns && String.eqb (field_local f) local)%bool
      then Some (i, f)
      else find_field ra r (S i) ns local
  end.

(** The writer collecting unused events for flattened fields
    (expand_struct.rs:526-551): absent, failed ([None]), or live. *)
Inductive uwriter := UOff | UDead | ULive (stack : list name) (evs : list wevent).

Definition has_flatten (fs : list field) : bool :=
  existsb (fun f => (negb (ya_attribute (f_attrs f)) && ya_flatten (f_attrs f))%bool) fs.

Definition init_unused (fs : list field) : uwriter :=
  if has_flatten fs then ULive [] [] else UOff.

(** [#write_unused] (expand_struct.rs:535-541). *)
Definition write_unused (u : uwriter) (e : event) : prog uwriter :=
  match u with
  | ULive stack evs =>
      match as_writer_event e with
      | None => Crash "called `Option::unwrap()` on a `None` value"
      | Some w =>
          let '(stack', ok) := emit_check stack w in
          Ret (if ok then ULive stack' (evs ++ [w]) else UDead)
      end
  | _ => Ret u
  end.

(** [EventWriter::new(&mut buf)]: default emitter configuration. *)
Definition default_econf : econf := EConf true None.

(** Local state of the generated loop. [l_depth] is the i32 variable
    [depth] (expand_struct.rs:413). *)
Record lstate := LState { l_slots : list slot; l_unused : uwriter; l_depth : Z }.

(** [#set_text] (expand_struct.rs:318-346): only String and Option<String>
    fields (other simple types do not compile). *)
Definition set_text1 (t : string) (f : field) (s : slot) : slot :=
  if ya_text (f_attrs f) then
    match f_ty f with
    | TBase (BSimple SString) => SOne (Some (VStr t))
    | TOpt (BSimple SString) => SOne (if is_empty t then None else Some (VStr t))
    | _ => s
    end
  else s.

Fixpoint set_text (t : string) (fs : list field) (ss : list slot) : list slot :=
  match fs, ss with
  | f :: fr, s :: sr => set_text1 t f s :: set_text t fr sr
  | _, _ => ss
  end.

(** [#struct_builder] (expand_struct.rs:348-378). *)
Definition build1 (x : ext) (tn : string) (f : field) (s : slot) : res value :=
  match f_ty f, s with
  | TVec _, SMany l => Ok (VVec l)
  | TOpt _, SOne o | TOptVec _, SOne o => Ok (VOpt o)
  | TBase _, SOne (Some v) => Ok v
  | TBase _, SOne None =>
      match ya_default (f_attrs f) with
      | Some d => Ok (x_default x d)
      | None => Er (f_label f +++ " is a required field of " +++ tn)
      end
  | _, _ => Er "unreachable: slot kind"
  end.

Fixpoint build (x : ext) (tn : string) (fs : list field) (ss : list slot) : res (list value) :=
  match fs, ss with
  | [], _ => Ok []
  | f :: fr, s :: sr =>
      match build1 x tn f s with
      | Er m => Er m
      | Ok v => rmap (cons v) (build x tn fr sr)
      end
  | _ :: _, [] => Er "unreachable: missing slot"
  end.

Section Deserialize.
  Variable x : ext.
  Variable E : env.
  (** The [deserialize] functions of the other types. *)
  Variable rec : nat -> prog value.
  (** Fuel for the loops of this function. *)
  Variable fuel : nat.

  (** [yaserde::de::from_str] (de/mod.rs:9-15) called on a string built by the
      generated code: a fresh [Deserializer]. *)
  Definition from_str_in (id : nat) (s : string) : prog value :=
    match fst (run (rec id) (d_init (parse_text s))) with
    | OOk v => Ret v
    | OErr m => Throw m
    | OPanic m => Crash m
    | OFuel => Stuck
    end.

  (** The attribute visitors: simple types (expand_struct.rs:95-124) or
      [struct_visitor] (expand_struct.rs:66-93), which wraps the raw value in
      a tag named after the type.  Simplification: the type is written as a
      single identifier at the use site. *)
  Definition visit_attr (b : base) (t : string) : prog value :=
    match b with
    | BSimple s => of_res (visit_simple x s t)
    | BUser id =>
        match nth_error E id with
        | Some td => from_str_in id ("<" +++ t_name td +++ ">" +++ t +++ "</" +++ t_name td +++ ">")
        | None => Crash "unknown type"
        end
    end.

  (** for value in attr.value.split_whitespace() (expand_struct.rs:247-259). *)
  Fixpoint visit_attr_items (b : base) (i : nat) (items : list string) (ss : list slot)
    : prog (list slot) :=
    match items with
    | [] => Ret ss
    | t :: r =>
        let* v := visit_attr b t in
        visit_attr_items b i r (upd i (put_slot v) ss)
    end.

  (** One attribute field against all attributes (expand_struct.rs:236-313). *)
  Fixpoint load_attr (f : field) (i : nat) (attrs : list attr) (ss : list slot)
    : prog (list slot) :=
    match attrs with
    | [] => Ret ss
    | a :: r =>
        let* ss' :=
          (if String.eqb (n_local (at_name a)) (field_local f) then
             match f_ty f with
             | TBase (BSimple SString) => Ret (upd i (put_slot (VStr (at_value a))) ss)
             | TVec b => visit_attr_items b i (split_ws (at_value a)) ss
             | TBase b | TOpt b | TOptVec b =>
                 let* v := visit_attr b (at_value a) in
                 Ret (upd i (put_slot v) ss)
             end
           else Ret ss) in
        load_attr f i r ss'
    end.

  (** [#attributes_loading] (expand_struct.rs:226-316). *)
  Fixpoint load_attrs (fs : list field) (i : nat) (attrs : list attr) (ss : list slot)
    : prog (list slot) :=
    match fs with
    | [] => Ret ss
    | f :: r =>
        let* ss' := (if ya_attribute (f_attrs f) then load_attr f i attrs ss else Ret ss) in
        load_attrs r (S i) attrs ss'
    end.

  (** [visit_struct] arm (expand_struct.rs:154-170). *)
  Definition arm_struct (i id : nat) (depth : Z) (ss : list slot) : prog (list slot) :=
    let go :=
      Peek (fun r =>
        match r with
        | Ok (EStart _ _ _) =>
            let* v := rec id in
            next_ ;;
            Ret (upd i (put_slot v) ss)
        | _ => Ret ss
        end) in
    if Z.eqb depth 0 then Next (fun _ => go) else go.

  (** [build_call_visitor] arm (expand_struct.rs:484-524). *)
  Definition arm_simple (ra : yattr) (i : nat) (f : field) (s : simple) (n : name)
      (ss : list slot) : prog (list slot) :=
    match namespace_check (ya_namespaces ra) (ya_prefix (f_attrs f)) (n_ns n) (n_local n) with
    | Some msg => Throw msg
    | None =>
        let* r := attempt (read_inner_value
          (Peek (fun r =>
             match r with
             | Ok (EChars t) => next_ ;; of_res (visit_simple x s t)
             | _ => Throw ("unable to parse content for " +++ field_local f)
             end))) in
        match r with
        | Ok v => Ret (upd i (put_slot v) ss)
        | Er _ => Ret ss
        end
    end.

  (** The loop (expand_struct.rs:415-473). [ln] is [named_element],
      [sd] is [start_depth]. *)
  Fixpoint struct_loop (fl : nat) (td : typedef) (fs : list field) (ln : string) (sd : nat)
      (st : lstate) : prog lstate :=
    match fl with
    | O => Stuck
    | S fl' =>
        let ra := t_attrs td in
        let* e := peek_ in
        match e with
        | EStart n attrs _ =>
            let ns := opt_default "" (n_ns n) in
            let* st1 :=
              (if (Z.eqb (l_depth st) 0 && String.eqb (n_local n) (de_root td)
                   && String.eqb ns (de_root_ns td))%bool then
                 let* ev := next_ in
                 let* u := write_unused (l_unused st) ev in
                 Ret (LState (l_slots st) u (l_depth st))
               else
                 match find_field ra fs 0 ns (n_local n) with
                 | Some (i, f) =>
                     let* ss :=
                       (match fbase (f_ty f) with
                        | BUser id => arm_struct i id (l_depth st) (l_slots st)
                        | BSimple s => arm_simple ra i f s n (l_slots st)
                        end) in
                     Ret (LState ss (l_unused st) (l_depth st))
                 | None =>
                     let* ev := next_ in
                     let* u := write_unused (l_unused st) ev in
                     let* u' :=
                       (if Z.ltb 0 (l_depth st)
                        then skip_element fuel write_unused u
                        else Ret u) in
                     Ret (LState (l_slots st) u' (l_depth st))
                 end) in
            let* ss :=
              (if Z.eqb (l_depth st1) 0 then load_attrs fs 0 attrs (l_slots st1)
               else Ret (l_slots st1)) in
            struct_loop fl' td fs ln sd (LState ss (l_unused st1) (l_depth st1 + 1))
        | EEnd n =>
            Depth (fun d =>
              if (String.eqb (n_local n) ln && Nat.eqb d (S sd))%bool then
                let* u := write_unused (l_unused st) e in
                Ret (LState (l_slots st) u (l_depth st))
              else
                let* ev := next_ in
                let* u := write_unused (l_unused st) ev in
                struct_loop fl' td fs ln sd (LState (l_slots st) u (l_depth st - 1)))
        | EEndDoc =>
            if ya_flatten ra then Ret st
            else struct_loop fl' td fs ln sd st
        | EChars t =>
            let ss := set_text t fs (l_slots st) in
            let* ev := next_ in
            let* u := write_unused (l_unused st) ev in
            struct_loop fl' td fs ln sd (LState ss u (l_depth st))
        | _ => Throw "unknown event"
        end
    end.

  (** [#visit_unused] (expand_struct.rs:544-549) with [call_flatten_visitors]
      (expand_struct.rs:203-224). *)
  Fixpoint visit_flatten (fs : list field) (i : nat) (text : string) (ss : list slot)
    : prog (list slot) :=
    match fs with
    | [] => Ret ss
    | f :: r =>
        let* ss' :=
          (if (negb (ya_attribute (f_attrs f)) && ya_flatten (f_attrs f))%bool then
             match f_ty f with
             | TBase (BUser id) =>
                 let* v := from_str_in id text in
                 Ret (upd i (fun _ => SOne (Some v)) ss)
             | TOpt (BUser id) =>
                 let* r := attempt (from_str_in id text) in
                 Ret (upd i (fun _ => SOne (match r with Ok v => Some v | Er _ => None end)) ss)
             | _ => Crash "flatten is not implemented"
             end
           else Ret ss) in
        visit_flatten r (S i) text ss'
    end.

  Definition visit_unused (fs : list field) (u : uwriter) (ss : list slot) : prog (list slot) :=
    match u with
    | ULive _ evs => visit_flatten fs 0 (emit_text default_econf evs) ss
    | _ => Ret ss
    end.

  (** The generated struct [deserialize] (expand_struct.rs:389-481). *)
  Definition de_struct (td : typedef) (fs : list field) : prog value :=
    let* e := peek_ in
    let '(ln, sns) :=
      match e with
      | EStart n _ _ => (n_local n, n_ns n)
      | _ => (de_root td, None)
      end in
    Depth (fun sd =>
      match (if Nat.eqb sd 0
             then namespace_check (ya_namespaces (t_attrs td)) (ya_prefix (t_attrs td)) sns ln
             else None) with
      | Some msg => Throw msg
      | None =>
          let* st := struct_loop fuel td fs ln sd
                       (LState (map (fun f => init_slot (f_ty f)) fs) (init_unused fs) 0) in
          let* ss := visit_unused fs (l_unused st) (l_slots st) in
          let* vs := of_res (build x (t_name td) fs ss) in
          Ret (VRec vs)
      end).

  (** ** Enums (expand_enum.rs) *)

  (** Arms of [#match_to_enum]: unit and one-payload variants only
      (expand_enum.rs:114-155). *)
  Fixpoint find_variant (vs : list variant) (i : nat) (nm : string) : option (nat * vbody) :=
    match vs with
    | [] => None
    | v :: r =>
        match v_body v with
        | VbNamed _ => find_variant r (S i) nm
        | b => if String.eqb (xml_element_name (v_attrs v) (v_label v)) nm then Some (i, b)
               else find_variant r (S i) nm
        end
    end.

  (** The visitor of a simple payload: [Ok(T::from_str(v).unwrap())]
      (expand_enum.rs:184-193). *)
  Definition visit_unwrap (s : simple) (t : string) : prog value :=
    match parse_simple x s t with
    | Ok v => Ret v
    | Er m => Crash ("called `Result::unwrap()` on an `Err` value: " +++ m)
    end.

  (** [call_simple_type_visitor] (expand_enum.rs:236-262). *)
  Definition read_payload (s : simple) : prog (res value) :=
    attempt (read_inner_value
      (let* e := peek_ in
       match e with
       | EEnd _ => visit_unwrap s ""
       | _ =>
           Next (fun r =>
             match r with
             | Ok (EChars t) => visit_unwrap s t
             | _ => Throw "unable to parse content for field_0"
             end)
       end)).

  (** [set_val], [set_opt], [set_vec] (expand_enum.rs:278-299). *)
  Definition set_payload (t : fty) (i : nat) (v : value) (cur : option value)
    : prog (option value) :=
    match t with
    | TBase _ => Ret (Some (VVar i [v]))
    | TOpt _ | TOptVec _ => Ret (Some (VVar i [VOpt (Some v)]))
    | TVec _ =>
        match cur with
        | None => Ret (Some (VVar i [VVec [v]]))
        | Some (VVar j [VVec l]) =>
            if Nat.eqb i j then Ret (Some (VVar i [VVec (l ++ [v])]))
            else Throw "Got sequence of different types"
        | Some _ => Throw "Got sequence of different types"
        end
    end.

  (** One arm; the boolean says [break]. *)
  Definition enum_arm (i : nat) (b : vbody) (cur : option value) : prog (option value * bool) :=
    match b with
    | VbUnit => Ret (Some (VVar i []), true)
    | VbNew _ t =>
        match fbase t with
        | BSimple s =>
            let* r := read_payload s in
            match r with
            | Ok v => let* c := set_payload t i v cur in Ret (c, false)
            | Er _ => Ret (cur, false)
            end
        | BUser id =>
            let* v := rec id in
            let* c := set_payload t i v cur in
            Next (fun _ => Ret (c, false))
        end
    | VbNamed _ => Ret (cur, false)
    end.

  (** The value matched against the variant names (expand_enum.rs:28-41).
      Simplification: the debug rendering of the event in the error message is
      dropped. *)
  Definition enum_element_name (tag : option string) (n : name) (attrs : list attr) : res string :=
    match tag with
    | None => Ok (n_local n)
    | Some t =>
        match find (fun a => String.eqb (n_local (at_name a)) t) attrs with
        | Some a => Ok (at_value a)
        | None => Er ("Expected enum tagged with " +++ t)
        end
    end.

  (** The loop (expand_enum.rs:62-103). *)
  Fixpoint enum_loop (fl : nat) (td : typedef) (vs : list variant) (ln : string) (sd : nat)
      (cur : option value) : prog (option value) :=
    match fl with
    | O => Stuck
    | S fl' =>
        let ra := t_attrs td in
        let* e := peek_ in
        match e with
        | EStart n attrs _ =>
            let* nm := of_res (enum_element_name (ya_tag ra) n attrs) in
            let* r :=
              (match find_variant vs 0 nm with
               | Some (i, b) => enum_arm i b cur
               | None => Next (fun _ => Ret (cur, false))
               end) in
            let '(cur1, brk) := r in
            if brk then Ret cur1
            else
              let* e2 := peek_ in
              match e2 with
              | EChars content =>
                  let* r2 :=
                    (match find_variant vs 0 content with
                     | Some (i, b) => enum_arm i b cur1
                     | None => Ret (cur1, false)
                     end) in
                  let '(cur2, brk2) := r2 in
                  if brk2 then Ret cur2 else enum_loop fl' td vs ln sd cur2
              | _ => enum_loop fl' td vs ln sd cur1
              end
        | EEnd n =>
            Depth (fun d =>
              if (String.eqb (n_local n) ln && Nat.eqb d (S sd))%bool then Ret cur
              else Next (fun _ => enum_loop fl' td vs ln sd cur))
        | EChars _ => Next (fun _ => enum_loop fl' td vs ln sd cur)
        | EEndDoc =>
            if ya_flatten ra then Ret cur
            else Throw "End of document, missing some content ?"
        | _ => Throw "unknown event"
        end
    end.

  (** The generated enum [deserialize] (expand_enum.rs:43-110). *)
  Definition de_enum (td : typedef) (vs : list variant) (dflt : value) : prog value :=
    let* e := peek_ in
    let '(ln, ens) :=
      match e with
      | EStart n _ _ => (n_local n, n_ns n)
      | _ => (de_root td, None)
      end in
    Depth (fun sd =>
      match namespace_check (ya_namespaces (t_attrs td)) (ya_prefix (t_attrs td)) ens ln with
      | Some msg => Throw msg
      | None =>
          let* o := enum_loop fuel td vs ln sd None in
          Ret (match o with Some v => v | None => dflt end)
      end).

  (** [deserialize_primitives] (yaserde/src/primitives.rs:36-51) as used by
      primitives.rs:44-53. *)
  Definition de_prim (td : typedef) (k : primkind) : prog value :=
    Peek (fun r =>
      match r with
      | Ok (EStart _ _ _) =>
          next_ ;;
          Peek (fun r2 =>
            of_res (parse_prim x (t_name td) k
              (match r2 with Ok (EChars t) => t | _ => "" end)))
      | _ => Throw "Start element not found"
      end).

  Definition de_body (id : nat) : prog value :=
    match nth_error E id with
    | None => Crash "unknown type"
    | Some td =>
        match t_body td with
        | DStruct fs => de_struct td fs
        | DEnum vs d => de_enum td vs d
        | DPrim k => de_prim td k
        end
    end.
End Deserialize.

(** [<T as YaDeserialize>::deserialize] for type [id]. *)
Fixpoint de (x : ext) (E : env) (fuel : nat) (id : nat) : prog value :=
  match fuel with
  | O => Stuck
  | S f => de_body x E (de x E f) f id
  end.

(** [from_reader] on a given event source / [from_str] (de/mod.rs:9-15). *)
Definition from_events (x : ext) (E : env) (fuel : nat) (id : nat) (s : stream) : outcome value :=
  fst (run (de x E fuel id) (d_init s)).
Definition from_str (x : ext) (E : env) (fuel : nat) (id : nat) (s : string) : outcome value :=
  from_events x E fuel id (parse_text s).
