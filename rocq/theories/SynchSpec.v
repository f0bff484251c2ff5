(** Specification of synchsafe integers and of the ID3v2 unsynchronisation scheme. *)
From Verif Require Import Base.

(** Value of [k] groups of 7 bits, least significant byte first. *)
Fixpoint groups7 (k : nat) (x : N) : N :=
  match k with
  | O => 0
  | S k' => x mod 128 + 128 * groups7 k' (x / 256)
  end.

(** Every byte of the [k]-byte big-endian representation has its top bit clear, and x fits in k bytes. *)
Definition synchsafe (k : nat) (x : N) : Prop :=
  x < 256 ^ N.of_nat k /\ Forall (fun b => b < 128) (be_enc k x).

(** ID3v2.4 section 6.1: a zero byte is inserted after every 0xFF. *)
Fixpoint unsynchronise (l : bytes) : bytes :=
  match l with
  | [] => []
  | b :: l' => if b =? 255 then b :: 0 :: unsynchronise l' else b :: unsynchronise l'
  end.

(** Decoder: the pair FF 00 stands for FF, anything else for itself. *)
Fixpoint resynchronise (l : bytes) : bytes :=
  match l with
  | [] => []
  | b :: l' =>
      match l' with
      | z :: l'' => if (b =? 255) && (z =? 0) then b :: resynchronise l'' else b :: resynchronise l'
      | [] => [b]
      end
  end.

(** Cutting a string into consecutive pieces of at most the given sizes. *)
Fixpoint cut (sizes : list N) (l : bytes) : list bytes :=
  match sizes with [] => [] | n :: r => takeN n l :: cut r (dropN n l) end.
