(** * Rust integer and bool text forms used by simple-typed fields.

    The generated code calls [<type>::from_str] and [Display]/[to_string]
    (yaserde_derive/src/de/expand_struct.rs:100-120,
     yaserde_derive/src/ser/element.rs:5-15); these are std functions. *)
From Verif Require Import Str.
From Coq Require Import NArith.

(** The eight integer types of [Field] (yaserde_derive/src/common/field.rs:211-227). *)
Inductive ity := I8 | U8 | I16 | U16 | I32 | U32 | I64 | U64.

Definition isigned (t : ity) : bool :=
  match t with I8 | I16 | I32 | I64 => true | _ => false end.

Definition ibits (t : ity) : Z :=
  match t with
  | I8 | U8 => 8 | I16 | U16 => 16 | I32 | U32 => 32 | I64 | U64 => 64
  end%Z.

Definition imin (t : ity) : Z :=
  if isigned t then (- 2 ^ (ibits t - 1))%Z else 0%Z.
Definition imax (t : ity) : Z :=
  if isigned t then (2 ^ (ibits t - 1) - 1)%Z else (2 ^ ibits t - 1)%Z.

Definition in_range (t : ity) (z : Z) : bool :=
  (Z.leb (imin t) z && Z.leb z (imax t))%bool.

(** ** Display *)

Definition digit_char (d : N) : ascii := ascii_of_N (48 + d).

(** Decimal digits of [n], most significant first, in front of [acc].
    [fuel] bounds the number of digits. *)
Fixpoint show_digits (fuel : nat) (n : N) (acc : string) : string :=
  match fuel with
  | O => acc
  | S f =>
      let acc' := String (digit_char (n mod 10)) acc in
      if N.eqb (n / 10) 0 then acc' else show_digits f (n / 10) acc'
  end.

Definition show_N (n : N) : string := show_digits (S (N.size_nat n)) n "".

(** [<int>::to_string] / [format!("{}", x)]. *)
Definition show_Z (z : Z) : string :=
  match z with
  | Z0 => "0"
  | Zpos p => show_N (Npos p)
  | Zneg p => String "-" (show_N (Npos p))
  end.

Definition show_bool (b : bool) : string := if b then "true" else "false".

(** ** FromStr *)

Definition err_empty := "cannot parse integer from empty string".
Definition err_digit := "invalid digit found in string".
Definition err_pos := "number too large to fit in target type".
Definition err_neg := "number too small to fit in target type".

Definition digit_of (c : ascii) : option Z :=
  let n := N_of_ascii c in
  if (N.leb 48 n && N.leb n 57)%bool then Some (Z.of_N (n - 48)) else None.

(** The digit loop of [from_str_radix(_, 10)]: every step is checked, the
    negative branch subtracts. *)
Fixpoint parse_digits (t : ity) (neg : bool) (acc : Z) (s : string) : res Z :=
  match s with
  | EmptyString => Ok acc
  | String c r =>
      match digit_of c with
      | None => Er err_digit
      | Some d =>
          let acc' := (if neg then acc * 10 - d else acc * 10 + d)%Z in
          if in_range t acc' then parse_digits t neg acc' r
          else Er (if neg then err_neg else err_pos)
      end
  end.

(** [<int>::from_str]: optional sign ('-' only for signed types), then at
    least one digit. *)
Definition parse_int (t : ity) (s : string) : res Z :=
  match s with
  | EmptyString => Er err_empty
  | String c r =>
      if Ascii.eqb c "+" then
        (if is_empty r then Er err_digit else parse_digits t false 0 r)
      else if Ascii.eqb c "-" then
        (if is_empty r then Er err_digit
         else if isigned t then parse_digits t true 0 r else Er err_digit)
      else parse_digits t false 0 s
  end%char.

Definition err_bool := "provided string was not `true` or `false`".

(** [bool::from_str]. *)
Definition parse_bool (s : string) : res bool :=
  if String.eqb s "true" then Ok true
  else if String.eqb s "false" then Ok false
  else Er err_bool.

(** [map_if_bool] (yaserde_derive/src/de/expand_struct.rs:100-108). *)
Definition map_if_bool (s : string) : string :=
  if String.eqb s "1" then "true"
  else if String.eqb s "0" then "false"
  else s.

(** Upper-case hexadecimal, at least two digits: [write!(f, "{:02X}", self.0)]
    (yaserde_derive/src/primitives.rs:62-67). *)
Definition hex_digit (d : N) : ascii :=
  if N.ltb d 10 then ascii_of_N (48 + d) else ascii_of_N (55 + d).
Fixpoint hex_digits (fuel : nat) (n : N) (acc : string) : string :=
  match fuel with
  | O => acc
  | S f =>
      let acc' := String (hex_digit (n mod 16)) acc in
      if N.eqb (n / 16) 0 then acc' else hex_digits f (n / 16) acc'
  end.
Definition show_hex (n : N) : string :=
  let s := hex_digits (S (N.size_nat n)) n "" in
  if Nat.ltb (String.length s) 2 then String "0" s else s.
