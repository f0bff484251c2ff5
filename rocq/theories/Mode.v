(** lofty/src/config/parse_options.rs: [ParsingMode]. *)
Inductive pmode : Set := Strict | BestAttempt | Relaxed.
Definition is_strict (m : pmode) : bool := match m with Strict => true | _ => false end.
