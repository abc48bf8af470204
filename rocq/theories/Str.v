(** * Strings and results shared by the whole model.

    Rust [String]/[&str] values are modelled as Coq [string]s, read as the
    UTF-8 bytes of the Rust string. *)
From Coq Require Export String Ascii List Bool Arith NArith ZArith Lia.
Export ListNotations.
Open Scope string_scope.
Open Scope list_scope.
Open Scope nat_scope.

(** Rust [Result<A, String>], the error type used by the whole yaserde API
    (yaserde/src/lib.rs:99-118). *)
Inductive res (A : Type) : Type :=
| Ok (a : A)
| Er (msg : string).
Arguments Ok {A} _.
Arguments Er {A} _.

Definition rbind {A B} (r : res A) (f : A -> res B) : res B :=
  match r with Ok a => f a | Er e => Er e end.

Definition sapp (a b : string) : string := String.append a b.
Infix "+++" := String.append (at level 60, right associativity).

(** XML white space: xml-rs [is_whitespace_char]. *)
Definition is_ws (c : ascii) : bool :=
  (Ascii.eqb c " " || Ascii.eqb c "009" || Ascii.eqb c "010" || Ascii.eqb c "013")%bool%char.

Fixpoint trim_start (s : string) : string :=
  match s with
  | EmptyString => EmptyString
  | String c r => if is_ws c then trim_start r else s
  end.

Fixpoint trim_end (s : string) : string :=
  match s with
  | EmptyString => EmptyString
  | String c r =>
      match trim_end r with
      | EmptyString => if is_ws c then EmptyString else String c EmptyString
      | r' => String c r'
      end
  end.

(** [str::trim_matches(is_whitespace_char)] as applied by xml-rs when
    [trim_whitespace(true)] is set (yaserde/src/de/mod.rs:32-41). *)
Definition trim (s : string) : string := trim_end (trim_start s).

Fixpoint all_chars (p : ascii -> bool) (s : string) : bool :=
  match s with
  | EmptyString => true
  | String c r => p c && all_chars p r
  end.

Definition is_empty (s : string) : bool :=
  match s with EmptyString => true | _ => false end.

(** The UTF-8 bytes of a Unicode scalar value. *)
Definition utf8 (n : N) : string :=
  let byte (k : N) (r : string) := String (ascii_of_N k) r in
  let rest (k : N) (r : string) := byte (128 + (n / k) mod 64)%N r in
  if N.ltb n 128 then byte n ""
  else if N.ltb n 2048 then byte (192 + n / 64)%N (rest 1%N "")
  else if N.ltb n 65536 then byte (224 + n / 4096)%N (rest 64%N (rest 1%N ""))
  else byte (240 + n / 262144)%N (rest 4096%N (rest 64%N (rest 1%N ""))).

(** The characters of [char::is_whitespace], as UTF-8 bytes: U+0009-U+000D,
    U+0020, U+0085, U+00A0, U+1680, U+2000-U+200A, U+2028, U+2029, U+202F,
    U+205F, U+3000. *)
Definition unicode_ws : list string :=
  Eval compute in
  (map (fun c => String c "") ["009"; "010"; "011"; "012"; "013"; " "]%char
   ++ map (fun c => String "194" (String c "")) ["133"; "160"]%char
   ++ [String "225" (String "154" (String "128" ""))]
   ++ map (fun c => String "226" (String "128" (String c "")))
        ["128"; "129"; "130"; "131"; "132"; "133"; "134"; "135"; "136"; "137"; "138";
         "168"; "169"; "175"]%char
   ++ [String "226" (String "129" (String "159" "")); String "227" (String "128" (String "128" ""))])%list.

(** Number of bytes of the white-space character a text begins with, 0 if it
    begins with none. *)
Definition ws_len (s : string) : nat :=
  match find (fun w => String.prefix w s) unicode_ws with
  | Some w => String.length w
  | None => 0
  end.

(** [str::split_whitespace]; [skip] bytes belong to the last white-space
    character. *)
Fixpoint split_ws_aux (skip : nat) (cur : string) (s : string) : list string :=
  match s with
  | EmptyString => if is_empty cur then [] else [cur]
  | String c r =>
      match skip with
      | S k => split_ws_aux k cur r
      | O => match ws_len s with
             | S k => if is_empty cur then split_ws_aux k "" r else cur :: split_ws_aux k "" r
             | O => split_ws_aux 0 (cur +++ String c "") r
             end
      end
  end.
Definition split_ws (s : string) : list string := split_ws_aux 0 "" s.

Definition opt_eqb (a b : option string) : bool :=
  match a, b with
  | Some x, Some y => String.eqb x y
  | None, None => true
  | _, _ => false
  end.

Definition opt_default (d : string) (o : option string) : string :=
  match o with Some s => s | None => d end.
