(** Model of lofty/src/id3/v2/util/synchsafe.rs. *)
From Verif Require Import Base.

(** Unsigned shift left in a [w]-bit type: bits shifted out are lost. *)
Definition shl (w x s : N) : N := (N.shiftl x s) mod 2 ^ w.

(** synchsafe.rs 251-264 ([impl_synchsafe!], fn synch): MAXIMUM_INTEGER = MAX >> size_of, error if greater. *)
Definition max_synch (w nbytes : N) : N := N.shiftr (2 ^ w - 1) nbytes.
Definition synch_checked (w nbytes : N) (body : N -> N) (n : N) : res unit N :=
  if max_synch w nbytes <? n then Err tt else Ok (body n).

(** synchsafe.rs 282-295: u8 instance. *)
Definition synch8 := synch_checked 8 1 (fun n => N.land n 0x7F).
Definition widening8 (n : N) : N :=
  let w := 0 in
  let w := N.lor w (N.land n 0x7F) in
  N.lor w (shl 16 (N.land n 0x80) 1).
Definition unsynch8 (u : N) : N := N.land u 0x7F.

(** synchsafe.rs 297-311: u16 instance. *)
Definition synch16 := synch_checked 16 2 (fun n =>
  N.lor (N.land n 0x7F) (shl 16 (N.land n (shl 16 0x7F 7)) 1)).
Definition widening16 (n : N) : N :=
  let w := 0 in
  let w := N.lor w (N.land n 0x7F) in
  let w := N.lor w (shl 16 (N.land n (shl 16 0x7F 7)) 1) in
  N.lor w (shl 32 (N.land n (shl 16 0x03 14)) 2).
Definition unsynch16 (u : N) : N :=
  N.lor (N.shiftr (N.land u 0x7F00) 1) (N.land u 0x7F).

(** synchsafe.rs 313-331: u32 instance. *)
Definition synch32 := synch_checked 32 4 (fun n =>
  N.lor (N.lor (N.lor (N.land n 0x7F)
    (shl 32 (N.land n (shl 32 0x7F 7)) 1))
    (shl 32 (N.land n (shl 32 0x7F 14)) 2))
    (shl 32 (N.land n (shl 32 0x7F 21)) 3)).
Definition widening32 (n : N) : N :=
  let w := 0 in
  let w := N.lor w (N.land n 0x7F) in
  let w := N.lor w (shl 64 (N.land n (shl 32 0x7F 7)) 1) in
  let w := N.lor w (shl 64 (N.land n (shl 32 0x7F 14)) 2) in
  let w := N.lor w (shl 64 (N.land n (shl 32 0x7F 21)) 3) in
  N.lor w (shl 64 (N.land n (shl 32 0x0F 28)) 4).
Definition unsynch32 (u : N) : N :=
  N.lor (N.lor (N.lor (N.shiftr (N.land u 0x7F000000) 3) (N.shiftr (N.land u 0x7F0000) 2))
    (N.shiftr (N.land u 0x7F00) 1)) (N.land u 0x7F).

(** ** UnsynchronizedStream (synchsafe.rs 13-141) *)

(** The inner reader is a script of events: each [read] call takes data from the current chunk
    (at most the 8192 bytes of the internal buffer), or fails with [ErrorKind::Interrupted].
    The empty script is end of file. *)
Inductive event := EvData (chunk : bytes) | EvIntr.

Definition BUF_SIZE : N := 8192.

(** One [self.reader.read(&mut self.buf)] call. *)
Definition inner_read (evs : list event) : res unit bytes * list event :=
  match evs with
  | [] => (Ok [], [])
  | EvIntr :: evs' => (Err tt, evs')
  | EvData c :: evs' =>
      if lenN c <=? BUF_SIZE then (Ok c, evs')
      else (Ok (takeN BUF_SIZE c), EvData (dropN BUF_SIZE c) :: evs')
  end.

(** [us_avail] is buf[pos..bytes_available]; the flag is encountered_ff. *)
Record ustream := mkU { us_avail : bytes; us_ff : bool; us_inner : list event }.

Definition ustream_new (evs : list event) : ustream := mkU [] false evs.

(** The loop of synchsafe.rs 105-137. [acc] is buf[..dest_pos] reversed; on [Err] the bytes already placed
    in the caller's buffer are not reported. [fuel] bounds iterations; running out is [Panic] (shown unreachable). *)
Fixpoint us_loop (fuel : nat) (want : N) (acc : bytes) (s : ustream) : res unit bytes * ustream :=
  match fuel with
  | O => (Panic, s)
  | S fuel' =>
      if want =? 0 then (Ok (rev acc), s)
      else
        let refill :=
          match us_avail s with
          | [] => match inner_read (us_inner s) with
                  | (Ok c, evs) => (Ok tt, mkU c (us_ff s) evs)
                  | (_, evs) => (Err tt, mkU [] (us_ff s) evs)
                  end
          | _ => (Ok tt, s)
          end in
        match refill with
        | (Ok _, s1) =>
            match us_avail s1 with
            | [] => (Ok (rev acc), s1)                        (* bytes_available == 0: break *)
            | b :: rest =>
                if us_ff s1 && (b =? 0)
                then us_loop fuel' want acc (mkU rest false (us_inner s1))   (* skip, continue *)
                else us_loop fuel' (want - 1) (b :: acc)
                       (mkU rest (b =? 0xFF) (us_inner s1))
            end
        | (_, s1) => (Err tt, s1)
        end
  end.

Definition event_len (e : event) : nat := match e with EvData c => length c | EvIntr => 0%nat end.
Definition us_fuel (s : ustream) : nat :=
  S (length (us_avail s) + fold_right (fun e n => event_len e + n)%nat 0%nat (us_inner s)).

(** fn read (synchsafe.rs 98-141). *)
Definition us_read (want : N) (s : ustream) : res unit bytes * ustream :=
  if want =? 0 then (Ok [], s) else us_loop (us_fuel s) want [] s.

(** A caller that issues the given read sizes, retrying a read that was interrupted as
    [Read::read_exact]/[read_to_end] do, and keeps what each successful read returned. *)
Fixpoint us_retry (n : nat) (want : N) (s : ustream) : res unit bytes * ustream :=
  match us_read want s with
  | (Err _, s') => match n with O => (Err tt, s') | S n' => us_retry n' want s' end
  | r => r
  end.
Fixpoint us_run (sched : list N) (s : ustream) : res unit (list bytes) :=
  match sched with
  | [] => Ok []
  | w :: sched' =>
      match us_retry (length (us_inner s)) w s with
      | (Ok out, s') =>
          match us_run sched' s' with Ok outs => Ok (out :: outs) | e => e end
      | (Err e, _) => Err e
      | (Panic, _) => Panic
      end
  end.
