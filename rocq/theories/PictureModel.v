(** Model of lofty/src/picture/mod.rs. *)
From Verif Require Export Base Str TextModel Mode.

(** lines 43-120. [Unknown] carries its text. *)
Inductive mime_type := Png | Jpeg | Tiff | Bmp | Gif | UnknownMime (s : str).
(** lines 73-82. [to_lowercase] is Unicode aware, but the only characters whose lowercase form is one of the letters of these
    names are ASCII, so ASCII folding decides the same comparisons. *)
Definition mime_from_str (s : str) : mime_type :=
  let l := lower s in
  if list_eqb l ($"image/jpeg") || list_eqb l ($"image/jpg") then Jpeg
  else if list_eqb l ($"image/png") then Png
  else if list_eqb l ($"image/tiff") then Tiff
  else if list_eqb l ($"image/bmp") then Bmp
  else if list_eqb l ($"image/gif") then Gif
  else UnknownMime s.
(** lines 95-104 *)
Definition mime_as_str (m : mime_type) : str :=
  match m with
  | Jpeg => $"image/jpeg" | Png => $"image/png" | Tiff => $"image/tiff" | Bmp => $"image/bmp" | Gif => $"image/gif"
  | UnknownMime s => s
  end.

(** lines 138-183 *)
Inductive pic_type := POther | PIcon | POtherIcon | PCoverFront | PCoverBack | PLeaflet | PMedia | PLeadArtist | PArtist
| PConductor | PBand | PComposer | PLyricist | PRecordingLocation | PDuringRecording | PDuringPerformance
| PScreenCapture | PBrightFish | PIllustration | PBandLogo | PPublisherLogo | PUndefined (n : N).
(** lines 189-214 *)
Definition pic_as_u8 (p : pic_type) : N :=
  match p with
  | POther => 0 | PIcon => 1 | POtherIcon => 2 | PCoverFront => 3 | PCoverBack => 4 | PLeaflet => 5 | PMedia => 6
  | PLeadArtist => 7 | PArtist => 8 | PConductor => 9 | PBand => 10 | PComposer => 11 | PLyricist => 12
  | PRecordingLocation => 13 | PDuringRecording => 14 | PDuringPerformance => 15 | PScreenCapture => 16
  | PBrightFish => 17 | PIllustration => 18 | PBandLogo => 19 | PPublisherLogo => 20 | PUndefined i => i
  end.
Definition named_types : list pic_type :=
  [POther; PIcon; POtherIcon; PCoverFront; PCoverBack; PLeaflet; PMedia; PLeadArtist; PArtist; PConductor; PBand; PComposer;
   PLyricist; PRecordingLocation; PDuringRecording; PDuringPerformance; PScreenCapture; PBrightFish; PIllustration; PBandLogo;
   PPublisherLogo].
(** lines 217-243: a match on 0..=20. *)
Definition pic_from_u8 (b : N) : pic_type :=
  match nth_error named_types (N.to_nat b) with Some p => p | None => PUndefined b end.
(** lines 247-272 *)
Definition pic_as_ape_key (p : pic_type) : option str :=
  match p with
  | POther => Some ($"Cover Art (Other)") | PIcon => Some ($"Cover Art (Png Icon)") | POtherIcon => Some ($"Cover Art (Icon)")
  | PCoverFront => Some ($"Cover Art (Front)") | PCoverBack => Some ($"Cover Art (Back)")
  | PLeaflet => Some ($"Cover Art (Leaflet)") | PMedia => Some ($"Cover Art (Media)")
  | PLeadArtist => Some ($"Cover Art (Lead Artist)") | PArtist => Some ($"Cover Art (Artist)")
  | PConductor => Some ($"Cover Art (Conductor)") | PBand => Some ($"Cover Art (Band)")
  | PComposer => Some ($"Cover Art (Composer)") | PLyricist => Some ($"Cover Art (Lyricist)")
  | PRecordingLocation => Some ($"Cover Art (Recording Location)")
  | PDuringRecording => Some ($"Cover Art (During Recording)")
  | PDuringPerformance => Some ($"Cover Art (During Performance)")
  | PScreenCapture => Some ($"Cover Art (Video Capture)") | PBrightFish => Some ($"Cover Art (Fish)")
  | PIllustration => Some ($"Cover Art (Illustration)") | PBandLogo => Some ($"Cover Art (Band Logotype)")
  | PPublisherLogo => Some ($"Cover Art (Publisher Logotype)") | PUndefined _ => None
  end.
(** lines 275-301: a match on the same strings. *)
Definition pic_from_ape_key (s : str) : pic_type :=
  match find (fun p => match pic_as_ape_key p with Some k => list_eqb k s | None => false end) named_types with
  | Some p => p
  | None => PUndefined 0
  end.
Definition pt_eqb (a b : pic_type) : bool :=
  match a, b with
  | PUndefined i, PUndefined j => i =? j
  | PUndefined _, _ | _, PUndefined _ => false
  | _, _ => pic_as_u8 a =? pic_as_u8 b
  end.

(** lines 591-600 and 308-319; the numbers are u32. *)
Record picture := mkPic { p_type : pic_type; p_mime : option mime_type; p_desc : option str; p_data : bytes }.
Record pic_info := mkInfo { i_width : N; i_height : N; i_depth : N; i_colors : N }.
Definition info_default := mkInfo 0 0 0 0.

Inductive pic_error := PNotEnough | PEof | PBadType | PSize | PText | PBase64 | PUnknownFormat.
Definition or_eof {A} (o : option A) : res pic_error A := match o with Some x => Ok x | None => Err PEof end.

(** lines 957-968, on at least 8 bytes *)
Definition mimetype_from_bin (b : bytes) : res pic_error mime_type :=
  match b with
  | b0 :: b1 :: b2 :: b3 :: b4 :: b5 :: b6 :: b7 :: _ =>
      if list_eqb [b0; b1; b2; b3; b4; b5; b6; b7] [0x89; 80; 78; 71; 0x0D; 0x0A; 0x1A; 0x0A] then Ok Png
      else if list_eqb [b0; b1] [0xFF; 0xD8] then Ok Jpeg
      else if list_eqb [b0; b1; b2; b3; b5] [71; 73; 70; 0x38; 97] && ((b4 =? 0x37) || (b4 =? 0x39)) then Ok Gif
      else if list_eqb [b0; b1] [66; 77] then Ok Bmp
      else if list_eqb [b0; b1; b2; b3] [73; 73; 42; 0] || list_eqb [b0; b1; b2; b3] [77; 77; 0; 42] then Ok Tiff
      else Err PUnknownFormat
  | _ => Panic
  end.

(** lines 634-655 *)
Definition pic_from_reader (data : bytes) : res pic_error picture :=
  if lenN data <? 8 then Err PNotEnough else
  let? m := mimetype_from_bin (takeN 8 data) in
  Ok (mkPic POther (Some m) None data).

(** lines 396-421: the search for the palette. Every round consumes at least 8 bytes, [fuel] is the length of the input. *)
Fixpoint png_chunks (fuel : nat) (r : bytes) : N :=
  match fuel with
  | O => 0
  | S fuel =>
      match read_be 4 r with
      | None => 0
      | Some (size, r) =>
          match read_exact 4 r with
          | None => 0
          | Some (ty, r) =>
              if list_eqb ty ($"PLTE") then size / 3
              else if U32_MAX <? size + 4 then 0
              else png_chunks fuel (dropN (size + 4) r)
          end
      end
  end.
(** lines 348-425 *)
Definition info_from_png (data : bytes) : res pic_error pic_info :=
  let? (sig, r) := or_eof (read_exact 8 data) in
  if negb (list_eqb sig [0x89; 80; 78; 71; 0x0D; 0x0A; 0x1A; 0x0A]) then Err PUnknownFormat else
  let? (ihdr, r) := or_eof (read_exact 8 r) in
  if negb (list_eqb (dropN 4 ihdr) [0x49; 0x48; 0x44; 0x52]) then Err PUnknownFormat else
  let? (width, r) := or_eof (read_be 4 r) in
  let? (height, r) := or_eof (read_be 4 r) in
  let? (depth, r) := or_eof (read_u8 r) in
  let? (ctype, r) := or_eof (read_u8 r) in
  let depth := if ctype =? 2 then depth * 3 else if (ctype =? 4) || (ctype =? 6) then depth * 4 else depth in
  if negb (ctype =? 3) then Ok (mkInfo width height depth 0) else
  let r := dropN 7 r in
  Ok (mkInfo width height depth (png_chunks (length r) r)).

(** lines 450-484; [precision * components] is a u8 product and [section_len - 2] a u16 difference. *)
Fixpoint jpeg_segments (fuel : nat) (r : bytes) : res pic_error pic_info :=
  match fuel with
  | O => Err PUnknownFormat
  | S fuel =>
      match r with
      | 255 :: r =>
          let? (marker, r) := or_eof (read_u8 r) in
          let? (len, r) := or_eof (read_be 2 r) in
          if marker =? 0xDA then Err PUnknownFormat
          else if (marker =? 0xC0) || (marker =? 0xC2) then
            let? (precision, r) := or_eof (read_u8 r) in
            let? (height, r) := or_eof (read_be 2 r) in
            let? (width, r) := or_eof (read_be 2 r) in
            let? (components, r) := or_eof (read_u8 r) in
            if 255 <? precision * components then Panic
            else Ok (mkInfo width height (precision * components) 0)
          else if len <? 2 then Panic
          else jpeg_segments fuel (dropN (len - 2) r)
      | _ => Err PUnknownFormat
      end
  end.
(** lines 430-486 *)
Definition info_from_jpeg (data : bytes) : res pic_error pic_info :=
  let? (m, r) := or_eof (read_exact 4 data) in
  if negb (list_eqb (takeN 3 m) [0xFF; 0xD8; 0xFF]) then Err PUnknownFormat else
  let? (len, r) := or_eof (read_be 2 r) in
  if len <? 2 then Err PNotEnough else
  let r := dropN (len - 2) r in
  jpeg_segments (S (length r)) r.

(** lines 329-341: errors of the two parsers are replaced by the default. *)
Definition info_from_picture (p : picture) : res pic_error pic_info :=
  let or_default (x : res pic_error pic_info) := match x with Ok i => Ok i | Err _ => Ok info_default | Panic => Panic end in
  if lenN (p_data p) <? 8 then Err PNotEnough else
  if list_eqb (takeN 4 (p_data p)) [0x89; 80; 78; 71] then or_default (info_from_png (p_data p))
  else if list_eqb (takeN 3 (p_data p)) [0xFF; 0xD8; 0xFF] then or_default (info_from_jpeg (p_data p))
  else Ok info_default.

(** ** data_encoding::BASE64 (RFC 4648 section 4, with padding; non-zero trailing bits are rejected). *)
Definition B64 : list N := $"ABCDEFGHIJKLMNOPQRSTUVWXYZabcdefghijklmnopqrstuvwxyz0123456789+/".
Definition b64_char (v : N) : N := nth (N.to_nat v) B64 0.
Definition b64_val (c : N) : option N :=
  if (65 <=? c) && (c <=? 90) then Some (c - 65)
  else if (97 <=? c) && (c <=? 122) then Some (c - 71)
  else if (48 <=? c) && (c <=? 57) then Some (c + 4)
  else if c =? 43 then Some 62 else if c =? 47 then Some 63 else None.
Fixpoint b64_encode (l : bytes) : bytes :=
  match l with
  | a :: b :: c :: l' => let n := a * 65536 + b * 256 + c in
      b64_char (n / 262144) :: b64_char (n / 4096 mod 64) :: b64_char (n / 64 mod 64) :: b64_char (n mod 64) :: b64_encode l'
  | [a; b] => let n := a * 65536 + b * 256 in
      [b64_char (n / 262144); b64_char (n / 4096 mod 64); b64_char (n / 64 mod 64); 61]
  | [a] => let n := a * 65536 in [b64_char (n / 262144); b64_char (n / 4096 mod 64); 61; 61]
  | [] => []
  end.
(** Padded blocks may be followed by others (concatenated encodings). *)
Fixpoint b64_decode (l : bytes) : option bytes :=
  match l with
  | [] => Some []
  | c0 :: c1 :: c2 :: c3 :: l' =>
      match b64_decode l', b64_val c0, b64_val c1 with
      | Some r, Some v0, Some v1 =>
          if c3 =? 61 then
            if c2 =? 61 then
              if v1 mod 16 =? 0 then Some (v0 * 4 + v1 / 16 :: r) else None
            else match b64_val c2 with
                 | Some v2 => if v2 mod 4 =? 0 then
                     let n := (v0 * 4096 + v1 * 64 + v2) / 4 in Some (n / 256 :: n mod 256 :: r) else None
                 | None => None
                 end
          else match b64_val c2, b64_val c3 with
               | Some v2, Some v3 => let n := ((v0 * 64 + v1) * 64 + v2) * 64 + v3 in
                   Some (n / 65536 :: n / 256 mod 256 :: n mod 256 :: r)
               | _, _ => None
               end
      | _, _, _ => None
      end
  | _ => None
  end.

(** lines 670-676 *)
Definition mime_str (p : picture) : str := match p_mime p with Some m => mime_as_str m | None => [] end.

(** lines 737-777; lengths are cast [as u32]. *)
Definition as_flac_bytes (p : picture) (i : pic_info) (encode : bool) : bytes :=
  let mime := utf8_enc (mime_str p) in
  let data :=
    be_enc 4 (pic_as_u8 (p_type p)) ++ be_enc 4 (lenN mime mod 2 ^ 32) ++ mime ++
    (match p_desc p with
     | Some d => be_enc 4 (lenN (utf8_enc d) mod 2 ^ 32) ++ utf8_enc d
     | None => [0; 0; 0; 0]
     end) ++
    be_enc 4 (i_width i) ++ be_enc 4 (i_height i) ++ be_enc 4 (i_depth i) ++ be_enc 4 (i_colors i) ++
    be_enc 4 (lenN (p_data p) mod 2 ^ 32) ++ p_data p in
  if encode then b64_encode data else data.

(** lines 798-887. [size] always equals the number of bytes left in the reader where it is compared; the model uses the
    reader. The subtractions cannot underflow because each follows a successful read of as many bytes. *)
Definition flac_desc (r : bytes) : res pic_error (option str * bytes) :=
  let? (dlen, r) := or_eof (read_be 4 r) in
  if (0 <? dlen) && (dlen <? lenN r) then
    Ok (match utf8_decode (takeN dlen r) with Ok d => Some d | _ => None end, dropN dlen r)
  else Ok (None, r).
Definition from_flac_inner (content : bytes) (m : pmode) : res pic_error (picture * pic_info) :=
  if lenN content <? 32 then Err PNotEnough else
  let? (ty, r) := or_eof (read_be 4 content) in
  if (255 <? ty) && is_strict m then Err PBadType else
  let? (mlen, r) := or_eof (read_be 4 r) in
  if lenN r <? mlen then Err PSize else
  match utf8_decode (takeN mlen r) with
  | Ok mime =>
      let r := dropN mlen r in
      let? (desc, r) := flac_desc r in
      let? (width, r) := or_eof (read_be 4 r) in
      let? (height, r) := or_eof (read_be 4 r) in
      let? (depth, r) := or_eof (read_be 4 r) in
      let? (colors, r) := or_eof (read_be 4 r) in
      let? (dlen, r) := or_eof (read_be 4 r) in
      if lenN r <? dlen then Err PSize else
      Ok (mkPic (pic_from_u8 (ty mod 256)) (match mime with [] => None | _ => Some (mime_from_str mime) end) desc (takeN dlen r),
          mkInfo width height depth colors)
  | Err _ => Err PText
  | Panic => Panic
  end.
(** lines 785-796 *)
Definition from_flac_bytes (b : bytes) (encoded : bool) (m : pmode) : res pic_error (picture * pic_info) :=
  if encoded then match b64_decode b with Some d => from_flac_inner d m | None => Err PBase64 end
  else from_flac_inner b m.

(** lines 892-903 *)
Definition as_ape_bytes (p : picture) : bytes :=
  (match p_desc p with Some d => utf8_enc d | None => [] end) ++ [0] ++ p_data p.
(** lines 913-955. [char::from(byte)] is Latin-1. The terminator, if any, is consumed. *)
Fixpoint ape_desc (r : bytes) : str * bytes :=
  match r with
  | [] => ([], [])
  | c :: r' => if c =? 0 then ([], r') else let (d, r'') := ape_desc r' in (c :: d, r'')
  end.
Definition from_ape_bytes (key : str) (b : bytes) : res pic_error picture :=
  match b with
  | [] => Err PNotEnough
  | _ =>
      let (d, r) := ape_desc b in
      let? (ident, _) := or_eof (read_exact 8 r) in
      let? m := mimetype_from_bin ident in
      Ok (mkPic (pic_from_ape_key key) (Some m) (match d with [] => None | _ => Some d end) r)
  end.
