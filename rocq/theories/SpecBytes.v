(** * Input that is any bytes: vocabulary (C73). *)
From Verif Require Import Str SpecUtf8.

(** [p] is the longest beginning of [s] that is Unicode: it is one, and every
    other one is a beginning of it. *)
Definition starts (s p : string) : Prop := exists r, s = (p +++ r)%string.
Definition longest_unicode (s p : string) : Prop :=
  Unicode p /\ starts s p /\ forall q, starts s q -> Unicode q -> starts p q.
