(** * Clients that call [inner_next] themselves

    [Deserializer::inner_next] is public (de/mod.rs:55).  Generated code never
    calls it, so that [prog] (Reader.v) has no such call; code written by hand
    may.  It takes the next event from the source, whether one has been
    peeked or not, and does not count depth. *)
From Verif Require Import Str Xml XmlText Reader.

(** [inner_next] (de/mod.rs:55-71) as a method of the [Deserializer]. *)
Definition inner_event (st : dstate) : res event * dstate :=
  let '(r, s) := inner_next (d_src st) in (r, DState (d_depth st) s (d_peeked st)).

(** Any code that holds a [&mut Deserializer] (all of its public methods:
    de/mod.rs:43-132; [skip_element], [read_inner_value] and
    [expect_end_element] are built from these). *)
Inductive client (A : Type) : Type :=
| KRet (a : A)
| KThrow (msg : string)
| KCrash (msg : string)
| KStuck
| KPeek (k : res event -> client A)
| KNext (k : res event -> client A)
| KInner (k : res event -> client A)
| KDepth (k : nat -> client A).
Arguments KRet {A} _.
Arguments KThrow {A} _.
Arguments KCrash {A} _.
Arguments KStuck {A}.
Arguments KPeek {A} _.
Arguments KNext {A} _.
Arguments KInner {A} _.
Arguments KDepth {A} _.

Fixpoint crun {A} (p : client A) (st : dstate) : outcome A * dstate :=
  match p with
  | KRet a => (OOk a, st)
  | KThrow m => (OErr m, st)
  | KCrash m => (OPanic m, st)
  | KStuck => (OFuel, st)
  | KPeek k => let '(r, st') := peek st in crun (k r) st'
  | KNext k =>
      match next_event st with
      | (Some r, st') => crun (k r) st'
      | (None, st') => (OPanic "attempt to subtract with overflow", st')
      end
  | KInner k => let '(r, st') := inner_event st in crun (k r) st'
  | KDepth k => crun (k (d_depth st)) st
  end.

(** The clients of Reader.v among them. *)
Fixpoint of_prog {A} (p : prog A) : client A :=
  match p with
  | Ret a => KRet a
  | Throw m => KThrow m
  | Crash m => KCrash m
  | Stuck => KStuck
  | Peek k => KPeek (fun r => of_prog (k r))
  | Next k => KNext (fun r => of_prog (k r))
  | Depth k => KDepth (fun d => of_prog (k d))
  end.

Fixpoint kbind {A B} (p : client A) (f : A -> client B) : client B :=
  match p with
  | KRet a => f a
  | KThrow m => KThrow m
  | KCrash m => KCrash m
  | KStuck => KStuck
  | KPeek k => KPeek (fun r => kbind (k r) f)
  | KNext k => KNext (fun r => kbind (k r) f)
  | KInner k => KInner (fun r => kbind (k r) f)
  | KDepth k => KDepth (fun d => kbind (k d) f)
  end.

(** [read_inner_value] (de/mod.rs:106-117) with any closure. *)
Definition kread_inner_value {A} (f : client A) : client A :=
  KNext (fun r =>
    match r with
    | Ok (EStart n _ _) => kbind f (fun a => kbind (of_prog (expect_end_element n)) (fun _ => KRet a))
    | _ => KThrow "Internal error: Bad Event"
    end).
