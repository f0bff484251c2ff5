(** Model of lofty/src/util/math.rs. *)
From Verif Require Export Base Str.

(** lines 12-26: on a type whose maximum is [max]; overflow of the addition and division by zero panic. *)
Definition div_round (max a b : N) : res unit N :=
  let s := a + N.shiftr b 1 in
  if max <? s then Panic else if b =? 0 then Panic else Ok (s / b).

(** lines 31-36 *)
Record f80 : Type := mkF80 { f_signed : bool; f_exponent : N; f_fraction : N }.
(** lines 42-56 *)
Definition f80_from_be (b : bytes) : f80 :=
  let b0 := nth 0 b 0 in
  mkF80 (negb (N.land b0 0x80 =? 0)) (N.lor (N.shiftl (N.land b0 0x7F) 8) (nth 1 b 0)) (be_dec (dropN 2 b)).

(** [f64::INFINITY.to_bits()], [f64::NAN.to_bits()] *)
Definition F64_INF : N := 0x7FF0000000000000.
Definition F64_NAN : N := 0x7FF8000000000000.

(** [x as u64] of an i16 value: sign extension. *)
Definition i_as_u64 (z : Z) : N := Z.to_N (z mod 2 ^ 64)%Z.

(** lines 59-94: the bits passed to [f64::from_bits]. *)
Definition f80_as_f64 (f : f80) : N :=
  let sign : N := if f_signed f then 1 else 0 in
  let sbit := (N.shiftl sign 63) mod 2 ^ 64 in
  if f_exponent f =? 32767 then
    if f_fraction f =? 0 then N.lor sbit F64_INF else N.lor sbit F64_NAN
  else if f_fraction f =? 0 then sbit
  else
    let fraction := N.land (f_fraction f) 0x7FFFFFFFFFFFFFFF in
    let exponent := (Z.of_N (f_exponent f) - 16383 + 1023)%Z in
    N.lor (N.lor sbit ((N.shiftl (i_as_u64 exponent) 52) mod 2 ^ 64)) (N.shiftr fraction 11).
