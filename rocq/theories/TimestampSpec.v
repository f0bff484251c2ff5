(** What a timestamp's text should be, independently of the parser. *)
From Verif Require Import Base Str TimestampModel.

(** Two- and four-digit decimal numbers. *)
Definition d2 (n : N) : bytes := [48 + n / 10; 48 + n mod 10].
Definition d4 (n : N) : bytes := d2 (n / 100) ++ d2 (n mod 100).

(** The fields of a timestamp from the largest to the smallest, stopping at the first absent one. *)
Fixpoint present (l : list (option N)) : list N :=
  match l with Some x :: l' => x :: present l' | _ => [] end.
Definition subfields (t : timestamp) : list (option N) :=
  [ts_month t; ts_day t; ts_hour t; ts_minute t; ts_second t].

(** A field is only present when its parent is, and no field needs more than its digits. *)
Fixpoint chain (l : list (option N)) : Prop :=
  match l with
  | [] => True
  | Some x :: l' => x <= 99 /\ chain l'
  | None :: l' => Forall (fun o => o = None) l'
  end.
Definition representable (t : timestamp) : Prop := ts_year t <= 9999 /\ chain (subfields t).

(** ISO 8601 extended form (with separators) and basic form (only "T"). *)
Fixpoint join (seps : list bytes) (fs : list N) : bytes :=
  match seps, fs with
  | s :: seps', f :: fs' => s ++ d2 f ++ join seps' fs'
  | _, _ => []
  end.
Definition extended (t : timestamp) : bytes :=
  d4 (ts_year t) ++ join [[45]; [45]; [84]; [58]; [58]] (present (subfields t)).
Definition basic (t : timestamp) : bytes :=
  d4 (ts_year t) ++ join [[]; []; [84]; []; []] (present (subfields t)).

(** Calendar limits. *)
Definition opt_le (o : option N) (m : N) : Prop := match o with Some x => x <= m | None => True end.
Definition in_limits (t : timestamp) : Prop :=
  ts_year t <= 9999 /\ opt_le (ts_month t) 12 /\ opt_le (ts_day t) 31 /\ opt_le (ts_hour t) 23 /\
  opt_le (ts_minute t) 59 /\ opt_le (ts_second t) 59 /\ chain (subfields t).

(** Byte-wise (dictionary) comparison. *)
Fixpoint lex (a b : bytes) : comparison :=
  match a, b with
  | [], [] => Eq
  | [], _ => Lt
  | _, [] => Gt
  | x :: a', y :: b' => match x ?= y with Eq => lex a' b' | c => c end
  end.

(** The ways a number below 100 may be written in a lenient timestamp: "06", " 6" and "6". *)
Inductive written (n : N) : bytes -> Prop :=
| w_zero : written n (d2 n)
| w_space : n < 10 -> written n [32; 48 + n]
| w_bare : n < 10 -> written n [48 + n].
