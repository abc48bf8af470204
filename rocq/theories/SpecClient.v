(** * Clients that call [inner_next]: vocabulary (C01-C06). *)
From Verif Require Import Str Xml XmlText Reader Client SpecReader.

(** [q] is [p] with extra [peek] calls, whose results are ignored. *)
Inductive kpeeks_added {A} : client A -> client A -> Prop :=
| ka_insert : forall p q, kpeeks_added p q -> kpeeks_added p (KPeek (fun _ => q))
| ka_ret : forall a, kpeeks_added (KRet a) (KRet a)
| ka_throw : forall m, kpeeks_added (KThrow m) (KThrow m)
| ka_crash : forall m, kpeeks_added (KCrash m) (KCrash m)
| ka_stuck : kpeeks_added KStuck KStuck
| ka_peek : forall k k', (forall r, kpeeks_added (k r) (k' r)) -> kpeeks_added (KPeek k) (KPeek k')
| ka_next : forall k k', (forall r, kpeeks_added (k r) (k' r)) -> kpeeks_added (KNext k) (KNext k')
| ka_inner : forall k k', (forall r, kpeeks_added (k r) (k' r)) -> kpeeks_added (KInner k) (KInner k')
| ka_depth : forall k k', (forall d, kpeeks_added (k d) (k' d)) -> kpeeks_added (KDepth k) (KDepth k').

(** The same, but before the next call of [inner_next] there is one of
    [next_event], or a [peek] that [p] makes itself.  With [true], a [peek] was
    added and there was no such call since. *)
Inductive kpeeks_safe {A} : bool -> client A -> client A -> Prop :=
| ks_insert : forall b p q, kpeeks_safe true p q -> kpeeks_safe b p (KPeek (fun _ => q))
| ks_ret : forall b a, kpeeks_safe b (KRet a) (KRet a)
| ks_throw : forall b m, kpeeks_safe b (KThrow m) (KThrow m)
| ks_crash : forall b m, kpeeks_safe b (KCrash m) (KCrash m)
| ks_stuck : forall b, kpeeks_safe b KStuck KStuck
| ks_peek : forall b k k', (forall r, kpeeks_safe false (k r) (k' r)) -> kpeeks_safe b (KPeek k) (KPeek k')
| ks_next : forall b k k', (forall r, kpeeks_safe false (k r) (k' r)) -> kpeeks_safe b (KNext k) (KNext k')
| ks_inner : forall k k', (forall r, kpeeks_safe false (k r) (k' r)) -> kpeeks_safe false (KInner k) (KInner k')
| ks_depth : forall b k k', (forall d, kpeeks_safe b (k d) (k' d)) -> kpeeks_safe b (KDepth k) (KDepth k').

(** Histories of calls; [kexec] collects what [next_event] hands out and says
    [None] if a call panicked. *)
Inductive kcall := CaPeek | CaNext | CaInner.
Fixpoint kexec (h : list kcall) (st : dstate) : option (list event * dstate) :=
  match h with
  | [] => Some ([], st)
  | CaPeek :: r => kexec r (snd (peek st))
  | CaInner :: r => kexec r (snd (inner_event st))
  | CaNext :: r =>
      match next_event st with
      | (None, _) => None
      | (Some (Er _), st') => kexec r st'
      | (Some (Ok e), st') =>
          match kexec r st' with
          | Some (l, st'') => Some (e :: l, st'')
          | None => None
          end
      end
  end.

(** A start tag was read: by [next_event] or by [inner_next]. *)
Definition tag_read (st st' : dstate) : Prop :=
  exists n a s, next_event st = (Some (Ok (EStart n a s)), st') \/ inner_event st = (Ok (EStart n a s), st').
