(** Model of lofty/src/id3/v2/restrictions.rs, lofty/src/id3/v2/header.rs and of the searches in lofty/src/id3/mod.rs. *)
From Verif Require Export Base Str TextModel SynchModel SynchSpec.

(** ** restrictions.rs *)
Inductive tag_size := S_128F_1M | S_64F_128K | S_32F_40K | S_32F_4K.
Inductive text_size := C_1024 | C_128 | C_30.
Inductive image_size := P_256 | P_64 | P_64_64.
(** lines 41-60 *)
Record restrictions := mkRestr {
  r_size : tag_size; r_text_encoding : bool; r_text_size : option text_size;
  r_image_encoding : bool; r_image_size : option image_size }.

(** [byte & mask == mask] *)
Definition flag (b mask : N) : bool := N.land b mask =? mask.

(** lines 66-109 *)
Definition restr_from_byte (b : N) : restrictions :=
  mkRestr
    (let x := N.land b 0xC0 in if x =? 64 then S_64F_128K else if x =? 128 then S_32F_40K else if x =? 192 then S_32F_4K else S_128F_1M)
    (flag b 0x20)
    (let x := N.land b 0x18 in if x =? 8 then Some C_1024 else if x =? 16 then Some C_128 else if x =? 24 then Some C_30 else None)
    (flag b 0x04)
    (let x := N.land b 0x03 in if x =? 1 then Some P_256 else if x =? 2 then Some P_64 else if x =? 3 then Some P_64_64 else None).
(** lines 111-146 *)
Definition restr_as_byte (r : restrictions) : N :=
  let byte := match r_size r with S_128F_1M => 0 | S_64F_128K => 0x40 | S_32F_40K => 0x80 | S_32F_4K => 0xC0 end in
  let byte := if r_text_encoding r then N.lor byte 0x20 else byte in
  let byte := match r_text_size r with Some C_1024 => N.lor byte 0x08 | Some C_128 => N.lor byte 0x10 | Some C_30 => N.lor byte 0x18 | None => byte end in
  let byte := if r_image_encoding r then N.lor byte 0x04 else byte in
  match r_image_size r with Some P_256 => N.lor byte 0x01 | Some P_64 => N.lor byte 0x02 | Some P_64_64 => N.lor byte 0x03 | None => byte end.

(** ** header.rs *)
Inductive id3v2_version : Set := V2 | V3 | V4.
Definition ver_num (v : id3v2_version) : N := match v with V2 => 2 | V3 => 3 | V4 => 4 end.
(** lines 33-53 *)
Record tag_flags := mkTFlags { tf_unsync : bool; tf_experimental : bool; tf_footer : bool; tf_crc : bool; tf_restrictions : option restrictions }.
(** lines 55-72 *)
Definition as_id3v24_byte (f : tag_flags) : N :=
  let byte := 0 in
  let byte := if tf_unsync f then N.lor byte 0x80 else byte in
  let byte := if tf_experimental f then N.lor byte 0x20 else byte in
  if tf_footer f then N.lor byte 0x10 else byte.
(** lines 77-90 *)
Definition as_id3v23_byte (f : tag_flags) : N :=
  let byte := 0 in
  let byte := if tf_experimental f then N.lor byte 0x40 else byte in
  if tf_footer f then N.lor byte 0x10 else byte.

Inductive hdr_error := HEof | HFake | HBadVersion (major minor : N) | HV2Compression | HBadExtendedSize.
Record id3v2_header := mkHdr { h_version : id3v2_version; h_flags : tag_flags; h_size : N; h_ext_size : N }.

Definition is_v2 (v : id3v2_version) : bool := match v with V2 => true | _ => false end.

(** lines 188-225. Returns the flags and the bytes left in the reader that was passed. A failed [read_exact] of
    an in-memory reader leaves it at its end. *)
Definition read_extended_header (r : bytes) (f : tag_flags) (hsize : N) : res hdr_error tag_flags * bytes :=
  if hsize <? 6 then (Err HBadExtendedSize, r) else
  match read_u8 r with
  | None => (Err HEof, [])
  | Some (_, r) =>
      match read_u8 r with
      | None => (Err HEof, [])
      | Some (ext, r) =>
          let crc :=
            if flag ext 0x20 then
              match read_exact 6 r with
              | None => None
              | Some (_, r) => Some (mkTFlags (tf_unsync f) (tf_experimental f) (tf_footer f) true (tf_restrictions f), r)
              end
            else Some (f, r) in
          match crc with
          | None => (Err HEof, [])
          | Some (f, r) =>
              if flag ext 0x10 then
                match read_u8 r with
                | None => (Err HEof, [])
                | Some (_, r) =>
                    match read_u8 r with
                    | None => (Err HEof, [])
                    | Some (b, r) => (Ok (mkTFlags (tf_unsync f) (tf_experimental f) (tf_footer f) (tf_crc f) (Some (restr_from_byte b))), r)
                    end
                end
              else (Ok f, r)
          end
      end
  end.

(** lines 144-168: the extended header, its size and the updated flags.
    In ID3v2.3 with unsynchronisation the extended header is read through an [UnsynchronizedStream], which fills its
    8192 byte buffer from the reader and is then dropped (C03: what it delivers is [resynchronise]). *)
Definition header_ext (v : id3v2_version) (f : tag_flags) (present : bool) (r : bytes) : res hdr_error (N * tag_flags) * bytes :=
  if present then
    match v with
    | V4 => match read_be 4 r with
            | None => (Err HEof, [])
            | Some (e, r) =>
                let e := unsynch32 e in
                match read_extended_header r f e with
                | (Ok f, r) => (Ok (e, f), r) | (Err x, r) => (Err x, r) | (Panic, r) => (Panic, r)
                end
            end
    | _ => if tf_unsync f then
             let u := resynchronise r in
             let rem := dropN BUF_SIZE r in
             match read_be 4 u with
             | None => (Err HEof, rem)
             | Some (e, u) =>
                 match read_extended_header u f e with
                 | (Ok f, _) => (Ok (e, f), rem) | (Err x, _) => (Err x, rem) | (Panic, _) => (Panic, rem)
                 end
             end
           else
             match read_be 4 r with
             | None => (Err HEof, [])
             | Some (e, r) =>
                 match read_extended_header r f e with
                 | (Ok f, r) => (Ok (e, f), r) | (Err x, r) => (Err x, r) | (Panic, r) => (Panic, r)
                 end
             end
    end
  else (Ok (0, f), r).

(** lines 102-180. The second component is what is left in the reader, also on error. *)
Definition header_parse (r0 : bytes) : res hdr_error id3v2_header * bytes :=
  match read_exact 10 r0 with
  | None => (Err HEof, [])
  | Some (h, r) =>
      if negb (list_eqb (takeN 3 h) ($"ID3")) then (Err HFake, r) else
      let major := nth 3 h 0 in
      match (if major =? 2 then Some V2 else if major =? 3 then Some V3 else if major =? 4 then Some V4 else None) with
      | None => (Err (HBadVersion major (nth 4 h 0)), r)
      | Some v =>
          let flags := nth 5 h 0 in
          if is_v2 v && flag flags 0x40 then (Err HV2Compression, r) else
          let f := mkTFlags (flag flags 0x80) (negb (is_v2 v) && flag flags 0x20) (negb (is_v2 v) && flag flags 0x10) false None in
          let size := unsynch32 (be_dec (dropN 6 h)) in
          match header_ext v f (negb (is_v2 v) && flag flags 0x40) r with
          | (Ok (e, f), r) =>
              if (0 <? e) && (size <=? e) then (Err HBadExtendedSize, r) else (Ok (mkHdr v f size e), r)
          | (Err x, r) => (Err x, r)
          | (Panic, r) => (Panic, r)
          end
      end
  end.

(** lines 183-185: u32 arithmetic. *)
Definition full_tag_size (h : id3v2_header) : res unit N :=
  let s := h_size h + 10 + h_ext_size h + (if tf_footer (h_flags h) then 10 else 0) in
  if U32_MAX <? s then Panic else Ok s.

(** ** lofty/src/id3/mod.rs *)
Inductive find_error := FIo | FHdr (e : hdr_error) | FText.

(** [seek(SeekFrom::Current(-n))] *)
Definition seek_back (pos n : N) : option N := if pos <? n then None else Some (pos - n).

(** lines 75-105: on a stream [data] at [pos]; the result is (found, size) and the final position. *)
Definition find_lyrics3v2 (data : bytes) (pos : N) : res find_error (bool * N * N) :=
  match seek_back pos 15 with
  | None => Err FIo
  | Some p =>
      match read_exact 15 (dropN p data) with
      | None => Err FIo
      | Some (b, _) =>
          if list_eqb (dropN 7 b) ($"LYRICS200") then
            match utf8_dec (takeN 7 b) with
            | None => Err FText
            | Some s => match parse_uint U32_MAX s with
                        | None => Err FText
                        | Some n => if U32_MAX <? n + 15 then Panic
                                    else match seek_back pos (n + 15) with
                                         | None => Err FIo
                                         | Some p => Ok (true, n, p)
                                         end
                        end
            end
          else Ok (false, 0, pos)
      end
  end.

(** lines 231-249: offset of "ID3" in a window; the window after it. *)
Fixpoint junk_scan (w : bytes) (a b : N) (index : N) : res find_error (option (N * bytes)) :=
  match w with
  | [] => Ok None
  | c :: w' =>
      if (a =? 73) && (b =? 68) && (c =? 51) then
        if index <? 2 then Panic else Ok (Some (index - 2, w'))
      else junk_scan w' b c (index + 1)
  end.
Definition find_id3v2_in_junk (w : bytes) := junk_scan w 0 0 0.

(** lines 176-227: header, content (if [read]) and final position. *)
Definition find_id3v2 (data : bytes) (start : N) (read : bool) (junk : option N)
  : res find_error (option id3v2_header * option bytes * N) :=
  let go (pos : N) : res find_error (option id3v2_header * option bytes * N) :=
    match header_parse (dropN pos data) with
    | (Ok h, rem) =>
        let p := lenN data - lenN rem in
        let body :=
          if read then
            match read_exact (h_size h) rem with
            | None => Err FIo
            | Some (t, _) => Ok (Some t, p + h_size h)
            end
          else Ok (None, p + h_size h) in
        let? (t, p) := body in
        Ok (Some h, t, if tf_footer (h_flags h) then p + 10 else p)
    | (Err _, rem) =>
        match seek_back (N.max pos (lenN data - lenN rem)) 10 with
        | None => Err FIo
        | Some p => Ok (None, None, p)
        end
    | (Panic, _) => Panic
    end in
  match junk with
  | None => go start
  | Some w =>
      let win := takeN w (dropN start data) in
      let? o := find_id3v2_in_junk win in
      match o with
      | None => Ok (None, None, start)
      | Some (off, rest) => go (start + lenN win - lenN rest - 3)
      end
  end.
