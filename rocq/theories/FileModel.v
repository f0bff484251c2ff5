(** Files as byte lists with a log of the primitive mutations, so that a crash leaves a prefix of the log applied. *)
From Verif Require Import Base.

(** lofty/src/util/io.rs (Truncate, Length) and std's Write/Seek on a file:
    a write at [pos] overwrites and extends (zero-filling a gap); [OpTrunc n] is [set_len n]. *)
Inductive fop := OpWrite (pos : N) (buf : bytes) | OpTrunc (n : N).

Definition write_at (pos : N) (buf data : bytes) : bytes :=
  takeN pos data ++ repeat 0 (N.to_nat (pos - lenN data)) ++ buf ++ dropN (pos + lenN buf) data.
Definition set_len (n : N) (data : bytes) : bytes :=
  takeN n data ++ repeat 0 (N.to_nat (n - lenN data)).

Definition apply_op (data : bytes) (o : fop) : bytes :=
  match o with OpWrite pos buf => write_at pos buf data | OpTrunc n => set_len n data end.
Definition apply_log (data : bytes) (l : list fop) : bytes := fold_left apply_op l data.

(** A write torn by a crash: only some prefix of the buffer reached the file. *)
Inductive torn : fop -> fop -> Prop :=
| torn_write : forall pos buf n, torn (OpWrite pos buf) (OpWrite pos (takeN n buf)).
(** [crash data log d]: [d] is a possible content after a crash while the operations of [log] ran. *)
Inductive crash (data : bytes) (log : list fop) : bytes -> Prop :=
| crash_clean : forall pre post, log = pre ++ post -> crash data log (apply_log data pre)
| crash_torn : forall pre o o' post, log = pre ++ o :: post -> torn o o' ->
    crash data log (apply_op (apply_log data pre) o').
