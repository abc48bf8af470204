(** * The [Deserializer] runtime (yaserde/src/de/mod.rs) and its clients. *)
From Verif Require Import Str Xml XmlText.

(** [Deserializer { depth, reader, peeked }] (de/mod.rs:17-21). *)
Record dstate := DState {
  d_depth : nat;
  d_src : stream;
  d_peeked : option event }.

(** [Deserializer::new] (de/mod.rs:24-30). *)
Definition d_init (s : stream) : dstate := DState 0 s None.

(** Events skipped by [inner_next] (de/mod.rs:60-62). *)
Definition invisible (e : event) : bool :=
  match e with EStartDoc | EPI _ | EComment _ => true | _ => false end.

(** [inner_next] (de/mod.rs:55-71).  The source delivers its events and then
    its final result again and again. *)
Fixpoint inner_next_evs (evs : list event) (f : fin) : res event * list event :=
  match evs with
  | [] => (match f with FEnd => Ok EEndDoc | FErr m => Er m end, [])
  | e :: r => if invisible e then inner_next_evs r f else (Ok e, r)
  end.

Definition inner_next (s : stream) : res event * stream :=
  let '(r, evs) := inner_next_evs (s_evs s) (s_fin s) in (r, Stream evs (s_fin s)).

(** [peek] (de/mod.rs:43-53). *)
Definition peek (st : dstate) : res event * dstate :=
  match d_peeked st with
  | Some e => (Ok e, st)
  | None =>
      match inner_next (d_src st) with
      | (Ok e, s) => (Ok e, DState (d_depth st) s (Some e))
      | (Er m, s) => (Er m, DState (d_depth st) s None)
      end
  end.

(** [self.depth += 1] / [self.depth -= 1] (de/mod.rs:79-87); [None]: the
    usize subtraction underflows (panic in checked builds). *)
Definition bump (d : nat) (e : event) : option nat :=
  match e with
  | EStart _ _ _ => Some (S d)
  | EEnd _ => match d with O => None | S k => Some k end
  | _ => Some d
  end.

(** [next_event] (de/mod.rs:73-90); the outer [option] is [None] on panic. *)
Definition next_event (st : dstate) : option (res event) * dstate :=
  let '(r, s) :=
    match d_peeked st with
    | Some e => (Ok e, d_src st)
    | None => inner_next (d_src st)
    end in
  match r with
  | Er m => (Some (Er m), DState (d_depth st) s None)
  | Ok e =>
      match bump (d_depth st) e with
      | Some d => (Some (Ok e), DState d s None)
      | None => (None, DState (d_depth st) s None)
      end
  end.

(** ** Client programs

    Any code holding a [&mut Deserializer] and using its public API is a tree
    of calls: [peek], [next_event] and [depth] (everything else is built from
    these).  [Throw] is [return Err(..)], [Crash] a panic, [Stuck] marks
    exhausted fuel of a modelled loop. *)
Inductive prog (A : Type) : Type :=
| Ret (a : A)
| Throw (msg : string)
| Crash (msg : string)
| Stuck
| Peek (k : res event -> prog A)
| Next (k : res event -> prog A)
| Depth (k : nat -> prog A).
Arguments Ret {A} _.
Arguments Throw {A} _.
Arguments Crash {A} _.
Arguments Stuck {A}.
Arguments Peek {A} _.
Arguments Next {A} _.
Arguments Depth {A} _.

Fixpoint bind {A B} (p : prog A) (f : A -> prog B) : prog B :=
  match p with
  | Ret a => f a
  | Throw m => Throw m
  | Crash m => Crash m
  | Stuck => Stuck
  | Peek k => Peek (fun r => bind (k r) f)
  | Next k => Next (fun r => bind (k r) f)
  | Depth k => Depth (fun d => bind (k d) f)
  end.

(** A call whose [Err] is inspected instead of propagated. *)
Fixpoint attempt {A} (p : prog A) : prog (res A) :=
  match p with
  | Ret a => Ret (Ok a)
  | Throw m => Ret (Er m)
  | Crash m => Crash m
  | Stuck => Stuck
  | Peek k => Peek (fun r => attempt (k r))
  | Next k => Next (fun r => attempt (k r))
  | Depth k => Depth (fun d => attempt (k d))
  end.

Declare Scope prog_scope.
Delimit Scope prog_scope with prog.
Open Scope prog_scope.
Notation "'let*' x ':=' p 'in' q" := (bind p (fun x => q))
  (at level 61, x pattern, p at next level, right associativity) : prog_scope.
Notation "p ;; q" := (bind p (fun _ => q))
  (at level 61, right associativity) : prog_scope.

Inductive outcome (A : Type) : Type :=
| OOk (a : A)
| OErr (msg : string)
| OPanic (msg : string)
| OFuel.
Arguments OOk {A} _.
Arguments OErr {A} _.
Arguments OPanic {A} _.
Arguments OFuel {A}.

Fixpoint run {A} (p : prog A) (st : dstate) : outcome A * dstate :=
  match p with
  | Ret a => (OOk a, st)
  | Throw m => (OErr m, st)
  | Crash m => (OPanic m, st)
  | Stuck => (OFuel, st)
  | Peek k => let '(r, st') := peek st in run (k r) st'
  | Next k =>
      match next_event st with
      | (Some r, st') => run (k r) st'
      | (None, st') => (OPanic "attempt to subtract with overflow", st')
      end
  | Depth k => run (k (d_depth st)) st
  end.

(** Lift a plain result ([?] on it). *)
Definition of_res {A} (r : res A) : prog A :=
  match r with Ok a => Ret a | Er m => Throw m end.

(** [reader.peek()?] and [reader.next_event()?]. *)
Definition peek_ : prog event := Peek of_res.
Definition next_ : prog event := Next of_res.

(** [expect_end_element] (de/mod.rs:119-132). *)
Definition expect_end_element (start_name : name) : prog unit :=
  let* e := next_ in
  match e with
  | EEnd n =>
      if name_eqb n start_name then Ret tt
      else Throw ("End tag </" +++ n_local n +++ "> didn't match the start tag <"
                  +++ n_local start_name +++ ">")
  | _ => Throw ("Unexpected token </" +++ n_local start_name +++ ">")
  end.

(** [read_inner_value] (de/mod.rs:106-117). *)
Definition read_inner_value {A} (f : prog A) : prog A :=
  Next (fun r =>
    match r with
    | Ok (EStart n _ _) =>
        let* a := f in
        expect_end_element n ;;
        Ret a
    | _ => Throw "Internal error: Bad Event"
    end).

(** [skip_element] (de/mod.rs:92-100).  The callback threads a state [S]
    (the captured environment of the Rust closure). *)
Fixpoint skip_loop {S} (fuel : nat) (depth : nat) (cb : S -> event -> prog S) (s : S) : prog S :=
  match fuel with
  | O => Stuck
  | Datatypes.S f =>
      Depth (fun cur =>
        if Nat.leb depth cur then
          let* e := next_ in
          let* s' := cb s e in
          skip_loop f depth cb s'
        else Ret s)
  end.

Definition skip_element {S} (fuel : nat) (cb : S -> event -> prog S) (s : S) : prog S :=
  Depth (fun depth => skip_loop fuel depth cb s).
