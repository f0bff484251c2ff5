(** ASCII string literals as lists of scalar values, and ASCII case folding. *)
From Coq Require Export String Ascii.
From Verif Require Import Base.
Close Scope string_scope.
From Coq Require Export List.
Export ListNotations.
Global Open Scope list_scope.
Global Open Scope N_scope.

Fixpoint of_string (s : string) : list N :=
  match s with EmptyString => [] | String c s' => N_of_ascii c :: of_string s' end.
Notation "'$' x" := (of_string x%string) (at level 1, x at level 0, only parsing).

(** std: [char::to_ascii_lowercase], [str::eq_ignore_ascii_case], [to_ascii_uppercase]. *)
Definition lower_ascii (c : N) : N := if (65 <=? c) && (c <=? 90) then c + 32 else c.
Definition upper_ascii (c : N) : N := if (97 <=? c) && (c <=? 122) then c - 32 else c.
Definition lower (s : list N) : list N := map lower_ascii s.
Definition upper (s : list N) : list N := map upper_ascii s.
Definition eq_ignore_case (a b : list N) : bool := list_eqb (lower a) (lower b).

(** std: [u32::to_string] etc.: decimal digits, no leading zeros. *)
Fixpoint digits_fuel (fuel : nat) (n : N) : list N :=
  match fuel with
  | O => []
  | S f => if n <? 10 then [48 + n] else digits_fuel f (n / 10) ++ [48 + n mod 10]
  end.
Definition to_dec (n : N) : list N := digits_fuel (S (N.to_nat (N.log2 n))) n.

Definition is_digit (c : N) : bool := (48 <=? c) && (c <=? 57).
(** std: [str::parse::<uN>] with [max] = uN::MAX: optional '+', then at least one digit, no overflow. *)
Fixpoint parse_digits (max acc : N) (s : list N) : option N :=
  match s with
  | [] => Some acc
  | c :: s' => if is_digit c
               then let v := acc * 10 + (c - 48) in
                    if max <? v then None else parse_digits max v s'
               else None
  end.
Definition parse_uint (max : N) (s : list N) : option N :=
  match s with
  | [] => None
  | 43 :: [] => None
  | 43 :: s' => parse_digits max 0 s'
  | _ => parse_digits max 0 s
  end.
Definition U8_MAX : N := 255.
Definition U16_MAX : N := 65535.
Definition U32_MAX : N := 4294967295.
Definition U64_MAX : N := 18446744073709551615.
