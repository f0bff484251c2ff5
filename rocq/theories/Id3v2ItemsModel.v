(** Model of the helpers for ID3v2 frames that are kept as binary frames: SYLT, GEOB and ATXT (lofty/src/id3/v2/items/sync_text.rs,
    encapsulated_object.rs, audio_text_frame.rs). The header with its flags, which they only carry, is left out. *)
From Verif Require Export FrameModel.

(** ** sync_text.rs 61-82 and 100-118: the content type is its discriminant *)
Definition sync_type_of (b : N) : option N := if b <=? 8 then Some b else None.
(** 122-135 *)
Record sylt := mkSylt { sy_enc : encoding; sy_lang : bytes; sy_format : ts_format; sy_type : N; sy_desc : option str; sy_content : list (N * str) }.
(** 238-259: the loop over the content *)
Fixpoint sylt_loop (fuel : nat) (e : encoding) (endian : option bool) (pos total : N) (acc : list (N * str)) (r : bytes) : res ferr (list (N * str)) :=
  if pos <? total then
    match fuel with
    | O => Panic
    | S fuel =>
        let? (text, n, r) :=
          (match endian with
           | Some be => as_ferr (utf16_decode_terminated_maybe_bom r be) EText
           | None => let? (d, r) := dec_term e r in Ok (d_content d, d_read d, r)
           end) in
        let? (time, r) := from_opt (read_be 4 r) EEof in
        sylt_loop fuel e endian (pos + n + 4) total (acc ++ [(time, text)]) r
    end
  else Ok acc.
(** 188-281; [data[1..4]] and so on are in range because of the first check *)
Definition sylt_parse (data : bytes) : res ferr sylt :=
  if lenN data <? 7 then Err EUndersized
  else
    let? (b, r) := from_opt (read_u8 data) EUndersized in
    let? e := from_opt (enc_of_u8 b) EEncoding in
    let? (lang, r) := from_opt (read_exact 3 r) EUndersized in
    if existsb (fun c => negb (is_alpha c)) lang then Err ELang
    else
      let? (b, r) := from_opt (read_u8 r) EUndersized in
      let? f := from_opt (ts_format_of b) EMessage in
      let? (b, r) := from_opt (read_u8 r) EUndersized in
      let? t := from_opt (sync_type_of b) EMessage in
      let? (d, r) := dec_term e r in
      let endian := match e with
                    | UTF16 => if bom_eqb (d_bom d) (0xFF, 0xFE) then Some false
                               else if bom_eqb (d_bom d) (0xFE, 0xFF) then Some true else None
                    | _ => None
                    end in
      let? content := sylt_loop (length r) e endian 0 (lenN r) [] r in
      Ok (mkSylt e lang f t (text_or_none (d_content d)) content).
(** 293-326: the encoding byte (303) is that of the frame, the text that for the version *)
Fixpoint sylt_lines (w : wopts) (e : encoding) (l : list (N * str)) : res ferr bytes :=
  match l with
  | [] => Ok []
  | (time, text) :: l =>
      let? b := enc_text w e text true in
      let? rest := sylt_lines w e l in
      Ok (b ++ be_enc 4 time ++ rest)
  end.
Definition text_or_empty (o : option str) : str := match o with Some s => s | None => [] end.
Definition sylt_bytes (w : wopts) (f : sylt) : res ferr bytes :=
  if negb (forallb is_alpha (sy_lang f)) then Err ELang
  else
    let e := w_enc w (sy_enc f) in
    let? d := enc_text w e (text_or_empty (sy_desc f)) true in
    let? c := sylt_lines w e (sy_content f) in
    let data := enc_to_u8 (sy_enc f) :: sy_lang f ++ ts_format_u8 (sy_format f) :: sy_type f :: d ++ c in
    if 2 ^ 32 - 1 <? lenN data then Err ETooMuch else Ok data.

(** ** encapsulated_object.rs 13-25, 69-102, 111-143 *)
Record geob := mkGeob { ge_enc : encoding; ge_mime : option str; ge_name : option str; ge_desc : option str; ge_data : bytes }.
Definition geob_parse (data : bytes) : res ferr geob :=
  if lenN data <? 4 then Err EUndersized
  else
    let? (b, r) := from_opt (read_u8 data) EUndersized in
    let? e := from_opt (enc_of_u8 b) EEncoding in
    let? (mime, r) := dec_term Latin1 r in
    let? (name, r) := dec_term e r in
    let? (desc, r) := dec_term e r in
    Ok (mkGeob e (text_or_none (d_content mime)) (text_or_none (d_content name)) (text_or_none (d_content desc)) r).
Definition geob_bytes (w : wopts) (f : geob) : res ferr bytes :=
  let e := w_enc w (ge_enc f) in
  let? n := enc_text w e (text_or_empty (ge_name f)) true in
  let? d := enc_text w e (text_or_empty (ge_desc f)) true in
  Ok (enc_to_u8 e :: utf8_enc (text_or_empty (ge_mime f)) ++ 0 :: n ++ d ++ ge_data f).

(** ** audio_text_frame.rs 49-74, 131-164, 173-195; the flags are the scrambling flag (28-48) *)
Record atxt := mkAtxt { ax_enc : encoding; ax_mime : str; ax_scrambled : bool; ax_text : str; ax_data : bytes }.
Definition atxt_parse (data : bytes) : res ferr atxt :=
  if lenN data <? 4 then Err EUndersized
  else
    let? (b, r) := from_opt (read_u8 data) EEof in
    let? e := from_opt (enc_of_u8 b) EEncoding in
    let? (mime, r) := dec_term Latin1 r in
    let? (b, r) := from_opt (read_u8 r) EEof in
    let? (text, r) := dec_term e r in
    Ok (mkAtxt e (d_content mime) (0 <? N.land b 1) (d_content text) r).
Definition atxt_bytes (w : wopts) (f : atxt) : res ferr bytes :=
  let e := w_enc w (ax_enc f) in
  let? m := enc_text w Latin1 (ax_mime f) true in
  let? t := enc_text w e (ax_text f) true in
  Ok (enc_to_u8 e :: m ++ (if ax_scrambled f then 1 else 0) :: t ++ ax_data f).
(** 76-80: [PartialEq] *)
Definition atxt_eqb (a b : atxt) : bool := list_eqb (ax_text a) (ax_text b).

(** 198-232: SCRAMBLING_TABLE *)
Definition bit (b n : N) : N := N.land (N.shiftr b n) 1.
Definition scramble_next (b : N) : N :=
  N.shiftl (N.lxor (bit b 6) (bit b 5)) 7 + N.shiftl (N.lxor (bit b 5) (bit b 4)) 6 + N.shiftl (N.lxor (bit b 4) (bit b 3)) 5 + N.shiftl (N.lxor (bit b 3) (bit b 2)) 4 +
  N.shiftl (N.lxor (bit b 2) (bit b 1)) 3 + N.shiftl (N.lxor (bit b 1) (bit b 0)) 2 + N.shiftl (N.lxor (bit b 7) (bit b 5)) 1 + N.lxor (bit b 6) (bit b 4).
(** The loop; [None] if the table of 127 bytes has no room. *)
Fixpoint scramble_fill (room : nat) (b : N) : option bytes :=
  match room with
  | O => None
  | S room =>
      let n := scramble_next b in
      if n =? 0xFE then Some (b :: repeat 0 room)
      else match scramble_fill room n with Some l => Some (b :: l) | None => None end
  end.
Definition SCRAMBLING_TABLE : bytes := match scramble_fill 127 0xFE with Some l => l | None => [] end.
(** 238-248: indexing panics out of range *)
Fixpoint scramble_from (idx : N) (data : bytes) : res ferr bytes :=
  match data with
  | [] => Ok []
  | b :: data =>
      match nth_error SCRAMBLING_TABLE (N.to_nat idx) with
      | None => Panic
      | Some k => let? r := scramble_from (if idx =? 126 then 0 else idx + 1) data in Ok (N.lxor b k :: r)
      end
  end.
Definition scramble (data : bytes) : res ferr bytes := scramble_from 0 data.
