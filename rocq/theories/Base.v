(** Shared vocabulary: bytes, fixed-width integers, readers, results. *)
From Coq Require Export List NArith ZArith Lia Bool Arith Permutation.
From Coq Require Export ZifyBool ZifyNat ZifyN.
Export ListNotations.
Global Open Scope N_scope.
Global Open Scope list_scope.

(** A byte is an [N] below 256; buffers (`Vec<u8>`, `&[u8]`) are lists of them. *)
Notation bytes := (list N).
Definition byte_ok (b : N) : Prop := b < 256.
Notation bytes_ok := (Forall byte_ok).
Definition byte_okb (b : N) : bool := b <? 256.

(** Outcome of a Rust function: a value, an error value, or a panic. *)
Inductive res (E A : Type) : Type :=
| Ok (a : A)
| Err (e : E)
| Panic.
Arguments Ok {E A} a.
Arguments Err {E A} e.
Arguments Panic {E A}.

Definition bind {E A B} (x : res E A) (f : A -> res E B) : res E B :=
  match x with Ok a => f a | Err e => Err e | Panic => Panic end.

Notation "'let?' x ':=' a 'in' b" := (bind a (fun x => b))
  (at level 200, x pattern, a at level 100, b at level 200, right associativity).

(** Lengths as [N] ([usize]/[u64] in Rust). *)
Definition lenN {A} (l : list A) : N := N.of_nat (length l).
Definition takeN {A} (n : N) (l : list A) : list A := firstn (N.to_nat n) l.
Definition dropN {A} (n : N) (l : list A) : list A := skipn (N.to_nat n) l.

(** Little/big endian fixed-width integers: [uN::to_le_bytes], [from_le_bytes], and byteorder's readers. *)
Fixpoint le_enc (n : nat) (v : N) : bytes :=
  match n with
  | O => []
  | S n' => v mod 256 :: le_enc n' (v / 256)
  end.
Fixpoint le_dec (l : bytes) : N :=
  match l with
  | [] => 0
  | b :: l' => b + 256 * le_dec l'
  end.
Definition be_enc (n : nat) (v : N) : bytes := rev (le_enc n v).
Definition be_dec (l : bytes) : N := le_dec (rev l).

(** [Read::read_exact] of [n] bytes on the remaining input: [None] is [UnexpectedEof]. *)
Definition read_exact (n : N) (r : bytes) : option (bytes * bytes) :=
  if n <=? lenN r then Some (takeN n r, dropN n r) else None.
Definition read_u8 (r : bytes) : option (N * bytes) :=
  match r with [] => None | b :: r' => Some (b, r') end.
Definition read_le (n : N) (r : bytes) : option (N * bytes) :=
  match read_exact n r with Some (b, r') => Some (le_dec b, r') | None => None end.
Definition read_be (n : N) (r : bytes) : option (N * bytes) :=
  match read_exact n r with Some (b, r') => Some (be_dec b, r') | None => None end.

Fixpoint sumN (l : list N) : N :=
  match l with [] => 0 | x :: l' => x + sumN l' end.

Fixpoint list_eqb (a b : list N) : bool :=
  match a, b with
  | [], [] => true
  | x :: a', y :: b' => (x =? y) && list_eqb a' b'
  | _, _ => false
  end.

Fixpoint lists_eqb (a b : list (list N)) : bool :=
  match a, b with
  | [], [] => true
  | x :: a', y :: b' => list_eqb x y && lists_eqb a' b'
  | _, _ => false
  end.
