(** Model of the in-place range replacement of lofty/src/flac/write.rs (176-307). *)
From Verif Require Export Base FileModel.

Inductive mv_error := MInput | MEof.

(** The file content and the log of operations so far (in order). *)
Definition fstate : Type := bytes * list fop.
Definition do_op (o : fop) (s : fstate) : fstate := (apply_op (fst s) o, snd s ++ [o]).

(** lines 235-250: zeros appended, at most [b] at a time. Each round takes at least one, so [fuel] above [remaining] is enough. *)
Fixpoint extend_storage (fuel : nat) (b remaining : N) (s : fstate) : res mv_error fstate :=
  if remaining =? 0 then Ok s else
  match fuel with
  | O => Panic
  | S fuel =>
      let chunk := N.min remaining b in
      extend_storage fuel b (remaining - chunk) (do_op (OpWrite (lenN (fst s)) (repeat 0 (N.to_nat chunk))) s)
  end.
Definition read_at (pos n : N) (s : fstate) : res mv_error bytes :=
  match read_exact n (dropN pos (fst s)) with Some (x, _) => Ok x | None => Err MEof end.
(** lines 252-280 *)
Fixpoint shift_right (fuel : nat) (b start cursor amount : N) (s : fstate) : res mv_error fstate :=
  if start <? cursor then
    match fuel with
    | O => Panic
    | S fuel =>
        let chunk := N.min (cursor - start) b in
        let source := cursor - chunk in
        let? x := read_at source chunk s in
        shift_right fuel b start source amount (do_op (OpWrite (source + amount) x) s)
    end
  else Ok s.
(** lines 282-307 *)
Fixpoint shift_left (fuel : nat) (b cursor stop amount : N) (s : fstate) : res mv_error fstate :=
  if cursor <? stop then
    match fuel with
    | O => Panic
    | S fuel =>
        let chunk := N.min (stop - cursor) b in
        let? x := read_at cursor chunk s in
        shift_left fuel b (cursor + chunk) stop amount (do_op (OpWrite (cursor - amount) x) s)
    end
  else Ok s.

(** lines 176-233, with the buffer size as a parameter (64 KiB in the code). The result is the log. *)
Definition MOVE_BUFFER_SIZE : N := 64 * 1024.
Definition replace_range_with (b : N) (data : bytes) (start stop : N) (new : bytes) : res mv_error (list fop) :=
  if stop <? start then Err MInput else
  let file_len := lenN data in
  if file_len <? stop then Err MInput else
  let old_len := stop - start in
  let fuel := S (N.to_nat (file_len + lenN new)) in
  let? s := (if old_len <? lenN new then
               let difference := lenN new - old_len in
               let? s := extend_storage fuel b difference (data, []) in
               shift_right fuel b stop file_len difference s
             else if lenN new <? old_len then
               let difference := old_len - lenN new in
               let? s := shift_left fuel b stop file_len difference (data, []) in
               Ok (do_op (OpTrunc (file_len - difference)) s)
             else Ok (data, [])) in
  Ok (snd (do_op (OpWrite start new) s)).
Definition replace_range := replace_range_with MOVE_BUFFER_SIZE.
