(** * Specification vocabulary for the reader properties (C01-C06).
    Independent of the model's helper functions. *)
From Verif Require Import Str Xml XmlText Reader.

(** [peeks_added p q]: [q] is the program [p] with extra [peek] calls, whose
    results are ignored, inserted at any points. *)
Inductive peeks_added {A} : prog A -> prog A -> Prop :=
| pa_insert : forall p q, peeks_added p q -> peeks_added p (Peek (fun _ => q))
| pa_ret : forall a, peeks_added (Ret a) (Ret a)
| pa_throw : forall m, peeks_added (Throw m) (Throw m)
| pa_crash : forall m, peeks_added (Crash m) (Crash m)
| pa_stuck : peeks_added Stuck Stuck
| pa_peek : forall k k', (forall r, peeks_added (k r) (k' r)) -> peeks_added (Peek k) (Peek k')
| pa_next : forall k k', (forall r, peeks_added (k r) (k' r)) -> peeks_added (Next k) (Next k')
| pa_depth : forall k k', (forall d, peeks_added (k d) (k' d)) -> peeks_added (Depth k) (Depth k').

(** Well-nested event sequences (any document or document fragment). *)
Inductive well_nested : list event -> Prop :=
| wn_nil : well_nested []
| wn_misc : forall e, (forall n a s, e <> EStart n a s) -> (forall n, e <> EEnd n) ->
    well_nested [e]
| wn_app : forall a b, well_nested a -> well_nested b -> well_nested (a ++ b)
| wn_elem : forall n a s l m, well_nested l -> well_nested (EStart n a s :: l ++ [EEnd m]).

(** A history of calls on a [Deserializer]; [exec] collects the events handed
    out by [next_event] and says [None] if a call panicked. *)
Inductive call := CPeek | CNext.

Fixpoint exec (h : list call) (st : dstate) : option (list event * dstate) :=
  match h with
  | [] => Some ([], st)
  | CPeek :: r => exec r (snd (peek st))
  | CNext :: r =>
      match next_event st with
      | (None, _) => None
      | (Some (Er _), st') => exec r st'
      | (Some (Ok e), st') =>
          match exec r st' with
          | Some (l, st'') => Some (e :: l, st'')
          | None => None
          end
      end
  end.

Definition is_start (e : event) : bool := match e with EStart _ _ _ => true | _ => false end.
Definition is_end (e : event) : bool := match e with EEnd _ => true | _ => false end.
Definition starts (l : list event) : nat := List.length (filter is_start l).
Definition ends (l : list event) : nat := List.length (filter is_end l).

(** The events a source delivers, without declaration, PIs and comments. *)
Definition strip (l : list event) : list event :=
  filter (fun e => match e with EStartDoc | EPI _ | EComment _ => false | _ => true end) l.
