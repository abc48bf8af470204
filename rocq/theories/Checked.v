(** * The UTF-8 checks of the code.

    Serializer and deserializer collect what they write in byte buffers and
    turn these into strings with [str::from_utf8(..).expect(..)]
    (yaserde/src/ser/mod.rs:14,22,41) and [String::from_utf8(buf).unwrap()]
    (yaserde_derive/src/de/expand_struct.rs:547).  Ser.v and De.v leave these
    checks out; here they are. *)
From Verif Require Import Str Num Xml XmlText Reader Schema De Ser.
Open Scope list_scope.

(** std's [run_utf8_validation]: the ranges the next bytes of a character have
    to be in. *)
Definition ranges := list (N * N).
Definition in_byte_range (c : ascii) (r : N * N) : bool := (N.leb (fst r) (N_of_ascii c) && N.leb (N_of_ascii c) (snd r))%bool.
Definition more : N * N := (128, 191)%N.
(** After the first byte of a character. *)
Definition after_first (c : ascii) : option ranges :=
  let b r := in_byte_range c r in
  if b (0, 127)%N then Some []
  else if b (194, 223)%N then Some [more]
  else if b (224, 224)%N then Some [(160, 191)%N; more]
  else if (b (225, 236)%N || b (238, 239)%N)%bool then Some [more; more]
  else if b (237, 237)%N then Some [(128, 159)%N; more]
  else if b (240, 240)%N then Some [(144, 191)%N; more; more]
  else if b (241, 243)%N then Some [more; more; more]
  else if b (244, 244)%N then Some [(128, 143)%N; more; more]
  else None.
Definition utf8_step (st : ranges) (c : ascii) : option ranges :=
  match st with
  | [] => after_first c
  | r :: rest => if in_byte_range c r then Some rest else None
  end.
Fixpoint utf8_run (st : ranges) (s : string) : option ranges :=
  match s with
  | EmptyString => Some st
  | String c r => match utf8_step st c with Some st' => utf8_run st' r | None => None end
  end.
(** [str::from_utf8(..).is_ok()]. *)
Definition from_utf8 (s : string) : bool :=
  match utf8_run [] s with Some [] => true | _ => false end.

(** ** Reading *)
Section Deserialize.
  Variable x : ext.
  Variable E : env.
  Variable rec : nat -> prog value.
  Variable fuel : nat.

  (** [String::from_utf8(buf).unwrap()] (expand_struct.rs:544-549). *)
  Definition visit_unused_checked (fs : list field) (u : uwriter) (ss : list slot) : prog (list slot) :=
    match u with
    | ULive _ evs =>
        let text := emit_text default_econf evs in
        if from_utf8 text then visit_flatten rec fs 0 text ss
        else Crash "called `Result::unwrap()` on an `Err` value: FromUtf8Error"
    | _ => Ret ss
    end.

  (** As [de_struct] (expand_struct.rs:389-481). *)
  Definition de_struct_checked (td : typedef) (fs : list field) : prog value :=
    let* e := peek_ in
    let '(ln, sns) :=
      match e with
      | EStart n _ _ => (n_local n, n_ns n)
      | _ => (de_root td, None)
      end in
    Depth (fun sd =>
      match (if Nat.eqb sd 0
             then namespace_check (ya_namespaces (t_attrs td)) (ya_prefix (t_attrs td)) sns ln
             else None) with
      | Some msg => Throw msg
      | None =>
          let* st := struct_loop x E rec fuel fuel td fs ln sd
                       (LState (map (fun f => init_slot (f_ty f)) fs) (init_unused fs) 0) in
          let* ss := visit_unused_checked fs (l_unused st) (l_slots st) in
          let* vs := of_res (build x (t_name td) fs ss) in
          Ret (VRec vs)
      end).

  Definition de_body_checked (id : nat) : prog value :=
    match nth_error E id with
    | None => Crash "unknown type"
    | Some td =>
        match t_body td with
        | DStruct fs => de_struct_checked td fs
        | DEnum vs d => de_enum x rec fuel td vs d
        | DPrim k => de_prim x td k
        end
    end.
End Deserialize.

Fixpoint de_checked (x : ext) (E : env) (fuel : nat) (id : nat) : prog value :=
  match fuel with
  | O => Stuck
  | S f => de_body_checked x E (de_checked x E f) f id
  end.
Definition from_str_checked (x : ext) (E : env) (fuel : nat) (id : nat) (s : string) : outcome value :=
  fst (run (de_checked x E fuel id) (d_init (parse_text s))).

(** ** Writing *)

(** [str::from_utf8(cursor.get_ref()).expect("Found invalid UTF-8")]
    (ser/mod.rs:14,22,41). *)
Definition expect_utf8 (r : sres string) : outcome string :=
  match r with
  | SOk s => if from_utf8 s then OOk s else OPanic "Found invalid UTF-8"
  | SErr m => OErr m
  | SStuck => OFuel
  end.
