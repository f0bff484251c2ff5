(** Model of OGG files: lofty/src/ogg/read.rs, ogg/mod.rs [find_last_page], ogg/tag/write.rs [write], ogg/{opus,vorbis,speex}/mod.rs
    and their properties.rs, util/math.rs [div_round], properties/channel_mask.rs [from_opus_channels]. *)
From Verif Require Export Base Str Mode TextModel PictureModel FileModel OggModel VorbisModel RfindModel.

Inductive ogg_format := Opus | OVorbis | Speex.
Inductive ogg_error := OPage (e : page_error) | OSig | OMissing | OEof | OInvalid | OComments (e : vc_error).
Definition opg {A} (r : res page_error A) : res ogg_error A := match r with Ok x => Ok x | Err e => Err (OPage e) | Panic => Panic end.
Definition ord {A} (o : option A) : res ogg_error A := match o with Some x => Ok x | None => Err OEof end.
(** constants.rs; the arguments of [read_from] in the three mod.rs (28-45) and tag/write.rs 48-53 *)
Definition head_sig (f : ogg_format) : bytes := match f with Opus => $"OpusHead" | OVorbis => 1 :: $"vorbis" | Speex => $"Speex   " end.
Definition comment_sig (f : ogg_format) : bytes := match f with Opus => $"OpusTags" | OVorbis => 3 :: $"vorbis" | Speex => [] end.
Definition header_count (f : ogg_format) : N := match f with OVorbis => 3 | _ => 2 end.
(** mod.rs 32-43 *)
Definition verify_signature (content sig : bytes) : res ogg_error unit :=
  if (lenN content <? lenN sig) || negb (list_eqb (takeN (lenN sig) content) sig) then Err OSig else Ok Datatypes.tt.
Definition pk_some (p : packets) (i : N) : res ogg_error bytes :=
  let? o := opg (pk_get p i) in match o with Some c => Ok c | None => Err OMissing end.

(** [packets.get(i).unwrap()] *)
Definition pk_unwrap (p : packets) (i : N) : res ogg_error bytes :=
  let? o := opg (pk_get p i) in match o with Some c => Ok c | None => Panic end.

(** read.rs 11-52: the tag (if wanted), the header of the first page, the packets and the position behind them *)
Definition ogg_read_from (f : ogg_format) (o : vopts) (tags : bool) (data : bytes) : res ogg_error (option vc * page * packets * N) :=
  let? (h, _) := opg (header_read 0 data) in
  let? (p, rest) := opg (read_count data (Z.of_N (header_count f))) in
  let pos := lenN data - lenN rest in
  let? ident := pk_some p 0 in
  let? _u := verify_signature ident (head_sig f) in
  if negb tags then Ok (None, h, p, pos) else
  let? c := pk_some p 1 in
  let? _u := verify_signature c (comment_sig f) in
  let c := dropN (lenN (comment_sig f)) c in
  match read_comments o (lenN c) c with
  | Ok t => Ok (Some t, h, p, pos)
  | Err e => Err (OComments e)
  | Panic => Panic
  end.

(** ** mod.rs 45-97. [pos] is the position of the reader. Each false positive lowers it. *)
Definition LAST_BUFFER : N := MAX_CONTENT / 4.
Definition next_candidate (data : bytes) (pos : N) (s : rev_start) (e : rev_end) : res ogg_error N :=
  match rev_search data pos OggS LAST_BUFFER s e with
  | Some (true, p) => Ok p
  | Some (false, _) => Err (OPage MissingMagic)
  | None => Err OEof
  end.
Fixpoint last_page_loop (fuel : nat) (data : bytes) (header_end current : N) : res ogg_error page :=
  match fuel with
  | O => Err (OPage MissingMagic)
  | S fuel =>
      match header_read current (dropN current data) with
      | Ok _ => let? (p, _) := opg (page_read current (dropN current data)) in Ok p
      | Err MissingMagic | Err InvalidVersion | Err BadSegmentCount =>
          let? c := next_candidate data current FromCurrent (EndPos header_end) in
          last_page_loop fuel data header_end c
      | Err e => Err (OPage e)
      | Panic => Panic
      end
  end.
Definition find_last_page (data : bytes) (header_end : N) : res ogg_error page :=
  let? c := next_candidate data header_end FromEnd EndCurrent in
  last_page_loop (S (length data)) data header_end c.

(** ** tag/write.rs 38-132 *)
Definition set_seq (n : N) (p : page) : page :=
  mkPage (pg_start p) (pg_flag p) (pg_abgp p) (pg_serial p) n (pg_segs p) (pg_cksum p) (pg_content p) (pg_end p).
(** lines 118-131: the pages that follow, renumbered. A page is at least 27 bytes. *)
Fixpoint copy_pages (fuel : nat) (next : N) (r : bytes) : res ogg_error (list bytes) :=
  match fuel with
  | O => Ok []
  | S fuel =>
      match page_read 0 r with
      | Ok (p, r') =>
          if U32_MAX <? next then Panic else
          let? p := opg (gen_crc (set_seq next p)) in
          let? l := copy_pages fuel (next + 1) r' in
          Ok (as_bytes p :: l)
      | Err _ => Ok []
      | Panic => Panic
      end
  end.
Fixpoint appends (pos : N) (l : list bytes) : list fop :=
  match l with [] => [] | b :: l => OpWrite pos b :: appends (pos + lenN b) l end.
(** The header pages count as one write here. *)
Definition ogg_write (f : ogg_format) (data : bytes) (t : vc) : res ogg_error (list fop) :=
  let? (h, _) := opg (header_read 0 data) in
  let? (p, rest) := opg (read_count data (Z.of_N (header_count f))) in
  let? c := pk_some p 1 in
  let? _u := (match f with Speex => Ok Datatypes.tt | _ => verify_signature c (comment_sig f) end) in
  let? (vlen, r) := ord (read_le 4 (dropN (lenN (comment_sig f)) c)) in
  let? (vb, _) := ord (read_exact vlen r) in
  let vendor := match utf8_dec vb with Some s => s | None => [] end in
  match create_metadata_packet (mkVc vendor (vc_items t) (vc_pics t)) (comment_sig f) (match f with OVorbis => true | _ => false end) with
  | Ok new =>
      let? (_, p) := opg (pk_set p 1 new) in
      let? (head, n) := opg (write_to p (pg_serial h) 0 FIRST_PAGE) in
      let? l := copy_pages (S (length rest)) n rest in
      Ok (OpTrunc 0 :: appends 0 (head :: l))
  | Err e => Err (OComments e)
  | Panic => Panic
  end.

(** ** Properties. util/math.rs 12-26 for u64: overflow and division by zero panic. *)
Definition mul64 {E} (a b : N) : res E N := if U64_MAX <? a * b then Panic else Ok (a * b).
Definition div64 {E} (a b : N) : res E N := if b =? 0 then Panic else Ok (a / b).
Definition div_round {E} (a b : N) : res E N := if U64_MAX <? a + b / 2 then Panic else div64 (a + b / 2) b.
Definition u32 (n : N) : N := n mod 2 ^ 32.
(** the saturating multiplication of the bit rates *)
Definition bits (n : N) : N := N.min (n * 8) U64_MAX.

(** channel_mask.rs 30-68, 101-137 *)
Definition opus_mask (channels : N) : option N :=
  match channels with
  | 1 => Some 4 | 2 => Some 3 | 3 => Some 7 | 4 => Some (3 + 16 + 32) | 5 => Some (7 + 16 + 32) | 6 => Some (7 + 16 + 32 + 8)
  | 7 => Some (7 + 512 + 1024 + 256 + 8) | 8 => Some (7 + 512 + 1024 + 16 + 32 + 8)
  | _ => None
  end.
(** opus/properties.rs 86-161; duration in milliseconds. The gain is the raw i16. *)
Record opus_props := mkOp { op_version : N; op_channels : N; op_mask : N; op_rate : N; op_gain : N; op_duration : N; op_overall : N; op_audio : N }.
Definition opus_properties (data : bytes) (first : page) (p : packets) (pos : N) : res ogg_error opus_props :=
  let? ident := pk_unwrap p 0 in
  if lenN ident <? 8 then Panic else
  let r := dropN 8 ident in
  let? (version, r) := ord (read_u8 r) in
  let? (channels, r) := ord (read_u8 r) in
  let? (pre_skip, r) := ord (read_le 2 r) in
  let? (rate, r) := ord (read_le 4 r) in
  let? (gain, r) := ord (read_le 2 r) in
  let? (family, _) := ord (read_u8 r) in
  if ((family =? 0) && (2 <? channels)) || ((family =? 1) && (8 <? channels)) then Err OInvalid else
  match opus_mask channels with
  | None => Panic
  | Some mask =>
      let base := mkOp version channels mask rate gain 0 0 0 in
      match find_last_page data pos with
      | Ok l =>
          let total := pg_abgp l - pg_abgp first - pre_skip in
          if 0 <? total then
            let? ms := mul64 total 1000 in
            let? length := div_round ms 48000 in
            let? c := pk_unwrap p 1 in
            if lenN data <? lenN ident + lenN c then Panic else
            let stream_len := lenN data - (lenN ident + lenN c) in
            let? fb := mul64 (lenN data) 8 in
            let? overall := div64 fb length in
            let? sb := mul64 stream_len 8 in
            let? audio := div64 sb length in
            Ok (mkOp version channels mask rate gain length (u32 overall) (u32 audio))
          else Ok base
      | Err _ => Ok base
      | Panic => Panic
      end
  end.
(** vorbis/properties.rs 88-150. The bit rates are the raw i32. *)
Record vorbis_props := mkVp { vp_version : N; vp_channels : N; vp_rate : N; vp_max : N; vp_nominal : N; vp_min : N; vp_duration : N; vp_overall : N; vp_audio : N }.
Definition positive32 (n : N) : bool := (0 <? n) && (n <? 2 ^ 31).
Definition vorbis_properties (data : bytes) (first : page) (p : packets) (pos : N) : res ogg_error vorbis_props :=
  let? ident := pk_unwrap p 0 in
  if lenN ident <? 7 then Panic else
  let r := dropN 7 ident in
  let? (version, r) := ord (read_le 4 r) in
  let? (channels, r) := ord (read_u8 r) in
  let? (rate, r) := ord (read_le 4 r) in
  let? (bmax, r) := ord (read_le 4 r) in
  let? (bnom, r) := ord (read_le 4 r) in
  let? (bmin, _) := ord (read_le 4 r) in
  let? (known, length) := (match find_last_page data pos with
     | Ok l =>
         let total := pg_abgp l - pg_abgp first in
         if (0 <? rate) && (0 <? total) then Ok (true, ((total * 1000 + rate / 2) / rate) mod 2 ^ 64) else Ok (false, 1000)
     | Err _ => Ok (false, 1000)
     | Panic => Panic
     end) in
  Ok (mkVp version channels rate bmax bnom bmin (if known then length else 0)
        (if length =? 0 then 0 else u32 (bits (lenN data) / length)) (if positive32 bnom then bnom / 1000 else 0)).
(** speex/properties.rs 88-192 *)
Record speex_props := mkSp { sp_version : N; sp_rate : N; sp_mode : N; sp_channels : N; sp_vbr : bool; sp_nominal : N; sp_duration : N; sp_overall : N; sp_audio : N }.
Definition speex_properties (data : bytes) (first : page) (p : packets) (pos : N) : res ogg_error speex_props :=
  let? ident := pk_unwrap p 0 in
  if lenN ident <? 80 then Err OInvalid else
  let r := dropN 28 ident in
  let? (version, r) := ord (read_le 4 r) in
  if 1 <? version then Err OInvalid else
  let? (_hs, r) := ord (read_le 4 r) in
  let? (rate, r) := ord (read_le 4 r) in
  let? (mode, r) := ord (read_le 4 r) in
  let? (_mb, r) := ord (read_le 4 r) in
  let? (channels, r) := ord (read_le 4 r) in
  if negb (channels =? 1) && negb (channels =? 2) then Err OInvalid else
  let? (nominal, r) := ord (read_le 4 r) in
  let? (_fs, r) := ord (read_le 4 r) in
  let? (vbr, _) := ord (read_le 4 r) in
  let stream_len := lenN data - sumN (takeN 2 (pk_sizes p)) in
  let? (known, length) := (match find_last_page data pos with
     | Ok l =>
         let total := pg_abgp l - pg_abgp first in
         if (0 <? rate) && (0 <? total) then let? ms := mul64 total 1000 in let? n := div_round ms rate in Ok (true, n) else Ok (false, 1000)
     | Err _ => Ok (false, 1000)
     | Panic => Panic
     end) in
  let? (overall, audio) :=
    (if positive32 nominal then let? a := div64 (bits (lenN data)) length in Ok (u32 a, nominal / 1000)
     else let? a := div_round (bits (lenN data)) length in let? b := div_round (bits stream_len) length in Ok (u32 a, u32 b)) in
  Ok (mkSp version rate mode channels (vbr =? 1) nominal (if known then length else 0) overall audio).

(** The files: the three mod.rs 28-45 *)
Inductive ogg_props := POpus (p : opus_props) | PVorbis (p : vorbis_props) | PSpeex (p : speex_props) | PNone.
Definition ogg_file_read (f : ogg_format) (o : vopts) (tags props : bool) (data : bytes) : res ogg_error (vc * ogg_props) :=
  let? (t, h, p, pos) := ogg_read_from f o tags data in
  let? pr := (if props then
      match f with
      | Opus => let? x := opus_properties data h p pos in Ok (POpus x)
      | OVorbis => let? x := vorbis_properties data h p pos in Ok (PVorbis x)
      | Speex => let? x := speex_properties data h p pos in Ok (PSpeex x)
      end
    else Ok PNone) in
  Ok (match t with Some t => t | None => mkVc [] [] [] end, pr).
