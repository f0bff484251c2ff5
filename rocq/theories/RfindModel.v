(** Model of the reverse pattern search of lofty/src/util/io.rs (322-440) and of ogg/mod.rs [find_last_page]. *)
From Verif Require Export Base.

(** io.rs 327-346 *)
Inductive rev_start := FromEnd | FromCurrent.
Inductive rev_end := StreamStart | EndCurrent | EndPos (p : N).

(** lines 420-430: [windows(n).enumerate().rev().find_map(..)]; [k] is the number of windows not looked at yet. *)
Fixpoint last_window (k : nat) (pat win : bytes) : option N :=
  match k with
  | O => None
  | S k => if list_eqb (takeN (lenN pat) (dropN (N.of_nat k) win)) pat then Some (N.of_nat k) else last_window k pat win
  end.
Definition window_count (pat win : bytes) : nat := N.to_nat (lenN win + 1 - lenN pat).

(** lines 409-439. [data] is the whole stream; the reader's position is [current - read] after a failed round plus what was read,
    that is [current] before the round. Result: found and position; [None] is an I/O error (a read past the end). [pos] is the
    position before the round. Each round moves [current] down, so [fuel] above [current] is never used up. *)
Fixpoint rev_rounds (fuel : nat) (data pat : bytes) (buffer end_pos current pos : N) : option (bool * N) :=
  if end_pos <? current then
    match fuel with
    | O => None
    | S fuel =>
        let read_size := N.min buffer (current - end_pos) in
        let read_start := current - read_size in
        match read_exact read_size (dropN read_start data) with
        | None => None
        | Some (win, _) =>
            match last_window (window_count pat win) pat win with
            | Some i => Some (true, read_start + i)
            | None => rev_rounds fuel data pat buffer end_pos
                        (current - N.min read_size (buffer - (lenN pat - 1))) (read_start + read_size)
            end
        end
    end
  else Some (false, pos).

(** lines 379-408 *)
Definition rev_search (data : bytes) (pos : N) (pat : bytes) (buffer : N) (s : rev_start) (e : rev_end) : option (bool * N) :=
  match pat with
  | [] => Some (true, pos)
  | _ =>
      let start_pos := match s with FromEnd => lenN data | FromCurrent => pos end in
      let end_pos := match e with StreamStart => 0 | EndCurrent => pos | EndPos p => p end in
      if (start_pos <? end_pos) || (start_pos - end_pos <? lenN pat) || (buffer <? lenN pat) then Some (false, pos)
      else rev_rounds (S (N.to_nat start_pos)) data pat buffer end_pos start_pos start_pos
  end.
