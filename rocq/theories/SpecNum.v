(** * Specification vocabulary for C07-C09. *)
From Verif Require Import Str Num.

(** The character of a decimal digit. *)
Definition digit (d : nat) : string := String (ascii_of_nat (48 + d)) "".

(** [decimal s z]: [s] is a non-empty sequence of decimal digits denoting [z]. *)
Inductive decimal : string -> Z -> Prop :=
| dec_one : forall d, d < 10 -> decimal (digit d) (Z.of_nat d)
| dec_snoc : forall s z d, decimal s z -> d < 10 ->
    decimal (s +++ digit d) (10 * z + Z.of_nat d).

(** What a field of integer type [t] should accept: an optional sign ('-' for
    signed types only) and decimal digits, with a value in the range of [t]. *)
Definition numeral (t : ity) (s : string) (z : Z) : Prop :=
  (decimal s z \/
   (exists r, s = "+" +++ r /\ decimal r z) \/
   (exists r m, s = "-" +++ r /\ decimal r m /\ z = (- m)%Z /\
                (t = I8 \/ t = I16 \/ t = I32 \/ t = I64))).

Definition fits (t : ity) (z : Z) : Prop :=
  match t with
  | I8 => -128 <= z <= 127
  | U8 => 0 <= z <= 255
  | I16 => -32768 <= z <= 32767
  | U16 => 0 <= z <= 65535
  | I32 => -2147483648 <= z <= 2147483647
  | U32 => 0 <= z <= 4294967295
  | I64 => -9223372036854775808 <= z <= 9223372036854775807
  | U64 => 0 <= z <= 18446744073709551615
  end%Z.
