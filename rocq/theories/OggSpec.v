(** Specification of the OGG container (RFC 3533), independent of the code. *)
From Verif Require Import Base.

(** Bit-serial CRC-32, polynomial 0x04C11DB7, most significant bit first, no reflection, no final xor. *)
Definition crc_bit (crc : N) : N :=
  let s := (2 * crc) mod 2 ^ 32 in
  if N.testbit crc 31 then N.lxor s 0x04C11DB7 else s.
Definition crc_byte (crc b : N) : N := N.iter 8 crc_bit (N.lxor crc (N.shiftl b 24)).
Definition crc_spec (l : bytes) : N := fold_left crc_byte l 0.

(** Lacing values of a packet: as many 255s as fit, then the remainder (always < 255). *)
Definition lacing (packet : bytes) : list N :=
  repeat 255 (N.to_nat (lenN packet / 255)) ++ [lenN packet mod 255].

(** Packet sizes announced by a sequence of lacing values (a packet ends at a value below 255), and the
    size of the unfinished packet at the end. *)
Fixpoint delace (acc : N) (segs : list N) : list N * N :=
  match segs with
  | [] => ([], acc)
  | s :: segs' =>
      if s <? 255 then let '(l, rest) := delace 0 segs' in (acc + s :: l, rest)
      else delace (acc + s) segs'
  end.

(** Cut a byte string into consecutive packets of the given sizes. *)
Fixpoint cut_sizes (sizes : list N) (l : bytes) : list bytes :=
  match sizes with
  | [] => []
  | n :: sizes' => takeN n l :: cut_sizes sizes' (dropN n l)
  end.

(** A page that can be represented: one to 255 lacing values summing to the content's length, fields in range. *)
Record page_fields := mkFields { f_flag : N; f_abgp : N; f_serial : N; f_seq : N; f_cksum : N; f_segs : bytes; f_content : bytes }.
Definition fields_ok (f : page_fields) : Prop :=
  f_flag f < 256 /\ f_abgp f < 2 ^ 64 /\ f_serial f < 2 ^ 32 /\ f_seq f < 2 ^ 32 /\ f_cksum f < 2 ^ 32 /\
  1 <= lenN (f_segs f) <= 255 /\ sumN (f_segs f) = lenN (f_content f).

(** RFC 3533 section 6: a page is flagged "continued" (1) when the previous page ended inside a packet (its last
    lacing value is 255), "first" (2) and "last" (4) on the first and last page when requested. *)
Definition ends_open (segs : list N) : bool := last segs 0 =? 255.
Fixpoint flags_ok (is_first open want_first want_last : bool) (pages : list (N * list N)) : Prop :=
  match pages with
  | [] => True
  | (flag, segs) :: rest =>
      flag = (if open then 1 else 0) + (if is_first && want_first then 2 else 0)
             + (if (match rest with [] => true | _ => false end) && want_last then 4 else 0)
      /\ flags_ok false (ends_open segs) want_first want_last rest
  end.

(** RFC 3533: the granule position is the special value -1 exactly on pages where no packet finishes. *)
Definition packet_ends_on (segs : list N) : Prop := exists s, In s segs /\ s < 255.
