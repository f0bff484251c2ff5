(** Model of lofty/src/util/text.rs. A Rust [String]/[&str] is its list of Unicode scalar values. *)
From Verif Require Import Base.

Notation str := (list N).

(** Rust's [char]: a Unicode scalar value. *)
Definition scalarb (c : N) : bool := (c <? 0x110000) && negb ((0xD800 <=? c) && (c <=? 0xDFFF)).
Definition scalar (c : N) : Prop := scalarb c = true.
Notation str_ok := (Forall scalar).

(** ** std: UTF-8. [str::as_bytes] / [char::len_utf8]. *)
Definition utf8_char (c : N) : bytes :=
  if c <? 0x80 then [c]
  else if c <? 0x800 then [0xC0 + c / 64; 0x80 + c mod 64]
  else if c <? 0x10000 then [0xE0 + c / 4096; 0x80 + (c / 64) mod 64; 0x80 + c mod 64]
  else [0xF0 + c / 262144; 0x80 + (c / 4096) mod 64; 0x80 + (c / 64) mod 64; 0x80 + c mod 64].
Fixpoint utf8_enc (s : str) : bytes :=
  match s with [] => [] | c :: s' => utf8_char c ++ utf8_enc s' end.

(** std: [String::from_utf8] / [str::from_utf8]: overlong forms, surrogates and values above U+10FFFF are errors. *)
Definition contb (b : N) : bool := (0x80 <=? b) && (b <? 0xC0).
Definition utf8_next (l : bytes) : option (N * bytes) :=
  match l with
  | [] => None
  | b0 :: l1 =>
      if b0 <? 0x80 then Some (b0, l1)
      else if b0 <? 0xC0 then None
      else match l1 with
      | [] => None
      | b1 :: l2 =>
          if negb (contb b1) then None
          else if b0 <? 0xE0 then
            let c := (b0 - 0xC0) * 64 + (b1 - 0x80) in
            if c <? 0x80 then None else Some (c, l2)
          else match l2 with
          | [] => None
          | b2 :: l3 =>
              if negb (contb b2) then None
              else if b0 <? 0xF0 then
                let c := (b0 - 0xE0) * 4096 + (b1 - 0x80) * 64 + (b2 - 0x80) in
                if (c <? 0x800) || negb (scalarb c) then None else Some (c, l3)
              else match l3 with
              | [] => None
              | b3 :: l4 =>
                  if negb (contb b3) then None
                  else if b0 <? 0xF8 then
                    let c := (b0 - 0xF0) * 262144 + (b1 - 0x80) * 4096 + (b2 - 0x80) * 64 + (b3 - 0x80) in
                    if (c <? 0x10000) || negb (scalarb c) then None else Some (c, l4)
                  else None
              end
          end
      end
  end.
Fixpoint utf8_dec_fuel (fuel : nat) (l : bytes) : option str :=
  match l with
  | [] => Some []
  | _ => match fuel with
         | O => None
         | S f => match utf8_next l with
                  | None => None
                  | Some (c, l') => match utf8_dec_fuel f l' with Some s => Some (c :: s) | None => None end
                  end
         end
  end.
Definition utf8_dec (l : bytes) : option str := utf8_dec_fuel (length l) l.

(** ** std: UTF-16. [str::encode_utf16]. *)
Definition utf16_char (c : N) : list N :=
  if c <? 0x10000 then [c] else [0xD800 + (c - 0x10000) / 1024; 0xDC00 + (c - 0x10000) mod 1024].
Fixpoint utf16_units (s : str) : list N :=
  match s with [] => [] | c :: s' => utf16_char c ++ utf16_units s' end.
(** std: [String::from_utf16]: unpaired surrogates are errors. *)
Fixpoint utf16_dec (l : list N) : option str :=
  match l with
  | [] => Some []
  | u :: l1 =>
      if (0xD800 <=? u) && (u <=? 0xDFFF) then
        if u <? 0xDC00 then
          match l1 with
          | v :: l2 =>
              if (0xDC00 <=? v) && (v <=? 0xDFFF) then
                match utf16_dec l2 with
                | Some s => Some (0x10000 + (u - 0xD800) * 1024 + (v - 0xDC00) :: s)
                | None => None
                end
              else None
          | [] => None
          end
        else None
      else match utf16_dec l1 with Some s => Some (u :: s) | None => None end
  end.

(** text.rs 167-192, TextEncoding and TryFrom<u8>. *)
Inductive encoding := Latin1 | UTF16 | UTF16BE | UTF8.
Definition enc_of_u8 (v : N) : option encoding :=
  match v with 0 => Some Latin1 | 1 => Some UTF16 | 2 => Some UTF16BE | 3 => Some UTF8 | _ => None end.
Definition enc_to_u8 (e : encoding) : N :=
  match e with Latin1 => 0 | UTF16 => 1 | UTF16BE => 2 | UTF8 => 3 end.
Definition encoding_eqb (a b : encoding) : bool := enc_to_u8 a =? enc_to_u8 b.

(** text.rs 195-197, verify_latin1. *)
Definition verify_latin1 (s : str) : bool := forallb (fun c => c <=? 255) s.
(** text.rs 202-213, to_id3v23. *)
Definition to_id3v23 (e : encoding) : encoding :=
  match e with UTF8 => UTF16 | UTF16BE => UTF16 | e => e end.

(** Errors: TextEncodingError carries [valid_up_to]; TextDecodingError constructors at text.rs 64-98, 119-148. *)
Record enc_error := mkEncErr { ee_valid_up_to : N }.
Inductive dec_error := DBadBom | DBadLength | DOddLength | DUtf8 | DUtf16.

(** text.rs 431-447, latin1_encode collected into a Result: the first error wins. *)
Fixpoint latin1_encode_at (index : N) (lossy : bool) (s : str) : res enc_error bytes :=
  match s with
  | [] => Ok []
  | c :: s' =>
      let? b := (if c <=? 255 then Ok c else if lossy then Ok 63 else Err (mkEncErr index)) in
      let? rest := latin1_encode_at (index + 1) lossy s' in
      Ok (b :: rest)
  end.
Definition latin1_encode (s : str) (lossy : bool) : res enc_error bytes := latin1_encode_at 0 lossy s.

(** [u16::to_be_bytes] / [to_le_bytes]; [be] selects. *)
Definition u16_bytes (be : bool) (u : N) : bytes := if be then [u / 256; u mod 256] else [u mod 256; u / 256].
Definition u16_of (be : bool) (a b : N) : N := if be then a * 256 + b else a + 256 * b.

(** text.rs 536-557, utf16_encode. *)
Definition utf16_encode (s : str) (be bom terminated : bool) : bytes :=
  (if bom then u16_bytes be 0xFEFF else [])
  ++ flat_map (u16_bytes be) (utf16_units s)
  ++ (if terminated then [0; 0] else []).

(** text.rs 215-246, TextEncoding::encode. [ne_be]: the target is big endian (u16::to_ne_bytes). *)
Definition encode (ne_be : bool) (e : encoding) (s : str) (terminated lossy : bool) : res enc_error bytes :=
  match e with
  | Latin1 => let? out := latin1_encode s lossy in Ok (if terminated then out ++ [0] else out)
  | UTF16 => Ok (utf16_encode s ne_be true terminated)
  | UTF16BE => Ok (utf16_encode s true false terminated)
  | UTF8 => Ok (utf8_enc s ++ (if terminated then [0] else []))
  end.

(** text.rs 525-530, trim_end_nulls: str::trim_end_matches('\0'). *)
Fixpoint trim_end_nulls (s : str) : str :=
  match s with
  | [] => []
  | c :: s' => match trim_end_nulls s' with
               | [] => if c =? 0 then [] else [c]
               | t => c :: t
               end
  end.

(** text.rs 425-429, latin1_decode. *)
Definition latin1_decode (l : bytes) : str := trim_end_nulls l.
(** text.rs 449-456, utf8_decode (and utf8_decode_str 458-462). *)
Definition utf8_decode (l : bytes) : res dec_error str :=
  match utf8_dec l with Some s => Ok (trim_end_nulls s) | None => Err DUtf8 end.
(** text.rs 464-471, utf16_decode. *)
Definition utf16_decode (u : list N) : res dec_error str :=
  match utf16_dec u with Some s => Ok (trim_end_nulls s) | None => Err DUtf16 end.
(** text.rs 481-491: chunks_exact(2) (an odd last byte is ignored) without byte order marks. *)
Fixpoint u16_chunks (be : bool) (l : bytes) : list N :=
  match l with
  | a :: b :: l' =>
      if ((a =? 0xFF) && (b =? 0xFE)) || ((a =? 0xFE) && (b =? 0xFF)) then u16_chunks be l'
      else u16_of be a b :: u16_chunks be l'
  | _ => []
  end.
(** text.rs 473-494, utf16_decode_bytes. *)
Definition utf16_decode_bytes (l : bytes) (be : bool) : res dec_error str :=
  match l with [] => Ok [] | _ => utf16_decode (u16_chunks be l) end.

(** text.rs 391-423, read_to_terminator: (text bytes, terminator length, rest of the reader).
    In the UTF-16 case a single last byte is consumed and dropped. *)
Fixpoint read_to_nul (r : bytes) : bytes * N * bytes :=
  match r with
  | [] => ([], 0, [])
  | b :: r' => if b =? 0 then ([], 1, r')
               else let '(t, n, rest) := read_to_nul r' in (b :: t, n, rest)
  end.
Fixpoint read_to_nul16 (r : bytes) : bytes * N * bytes :=
  match r with
  | b1 :: b2 :: r' =>
      if (b1 =? 0) && (b2 =? 0) then ([], 2, r')
      else let '(t, n, rest) := read_to_nul16 r' in (b1 :: b2 :: t, n, rest)
  | _ => ([], 0, [])
  end.
Definition read_to_terminator (r : bytes) (e : encoding) : bytes * N * bytes :=
  match e with Latin1 | UTF8 => read_to_nul r | UTF16 | UTF16BE => read_to_nul16 r end.

(** text.rs 252-257, DecodeTextResult. *)
Record decoded := mkDec { d_content : str; d_read : N; d_bom : N * N }.
Definition bom_eqb (a b : N * N) : bool := (fst a =? fst b) && (snd a =? snd b).

(** text.rs 354-383: the decoding part of decode_text. Indexing raw_bytes[0], [1] panics when out of range. *)
Definition decode_raw (e : encoding) (bom_opt : N * N) (raw : bytes) : res dec_error (str * (N * N)) :=
  match e with
  | Latin1 => Ok (latin1_decode raw, (0, 0))
  | UTF16 =>
      if lenN raw <? 2 then Err DBadLength
      else if negb (lenN raw mod 2 =? 0) then Err DOddLength
      else
        let? bom := (if bom_eqb bom_opt (0, 0)
                     then match raw with a :: b :: _ => Ok (a, b) | _ => Panic end
                     else Ok bom_opt) in
        if bom_eqb bom (0xFE, 0xFF) then let? s := utf16_decode_bytes raw true in Ok (s, bom)
        else if bom_eqb bom (0xFF, 0xFE) then let? s := utf16_decode_bytes raw false in Ok (s, bom)
        else Err DBadBom
  | UTF16BE => let? s := utf16_decode_bytes raw true in Ok (s, (0, 0))
  | UTF8 => let? s := utf8_decode raw in Ok (s, (0, 0))
  end.

(** text.rs 315-389, decode_text; the rest of the reader is returned. *)
Definition decode_text (e : encoding) (terminated : bool) (bom_opt : N * N) (r : bytes)
  : res dec_error (decoded * bytes) :=
  if terminated then
    let '(raw, tlen, rest) := read_to_terminator r e in
    match raw with
    | [] => Ok (mkDec [] tlen (0, 0), rest)
    | _ => let? (s, bom) := decode_raw e bom_opt raw in Ok (mkDec s (lenN raw + tlen) bom, rest)
    end
  else
    match r with
    | [] => Ok (mkDec [] 0 (0, 0), [])
    | _ => let? (s, bom) := decode_raw e bom_opt r in Ok (mkDec s (lenN r) bom, [])
    end.

(** text.rs 505-523, utf16_decode_terminated_maybe_bom. *)
Definition utf16_decode_terminated_maybe_bom (r : bytes) (be : bool) : res dec_error (str * N * bytes) :=
  let '(raw, tlen, rest) := read_to_terminator r UTF16 in
  let? s :=
    (match raw with
     | a :: b :: raw' =>
         if (a =? 0xFF) && (b =? 0xFE) then utf16_decode_bytes raw' false
         else if (a =? 0xFE) && (b =? 0xFF) then utf16_decode_bytes raw' true
         else utf16_decode_bytes raw be
     | _ => utf16_decode_bytes raw be
     end) in
  Ok (s, lenN raw + tlen, rest).
