(** Model of lofty/src/musepack: read.rs, sv4to6/properties.rs, sv7/properties.rs, sv8/read.rs and sv8/properties.rs. The reader is the
    file and a position; only the end of the file makes a read fail. f64 arithmetic as in [AiffModel.v], f32 in the same way with 24 bits;
    the logarithm of the peaks of version 7 is a function [log_peak] that is given. [inflate] as in [FrameReadModel.v]. The derived writer
    of the file is not modelled (it is that of the tags). *)
From Verif Require Import Base Str MathModel ItemKeyModel Id3v1Model Id3v2HeaderModel FrameReadModel ApeModel AiffModel MpegModel.

Inductive mpc_error := CIo | CTag | CSize | CVersion | CLong | CCbr | CIntensity | CBlock | CHeader | CGain | CAudio | CEnd | CSilence | CKey.
Definition io {A} (o : option A) : res mpc_error A := match o with Some x => Ok x | None => Err CIo end.
(** u64 arithmetic *)
Definition u64_mul (a b : N) : res mpc_error N := if U64_MAX <? a * b then Panic else Ok (a * b).
Definition u64_sub (a b : N) : res mpc_error N := if a <? b then Panic else Ok (a - b).
Definition u64_div (a b : N) : res mpc_error N := if b =? 0 then Panic else Ok (a / b).
Definition u64_div_round (a b : N) : res mpc_error N := match div_round U64_MAX a b with Ok x => Ok x | _ => Panic end.

(** constants.rs *)
Definition MPC_RATES : list N := [44100; 48000; 37800; 32000; 0; 0; 0; 0].
Definition SYNTH_DELAY : N := 481.
Definition FRAME_LENGTH : N := 1152.

(** ** Versions 4 to 6: sv4to6/properties.rs 80-162 *)
Record sv6_props := mk6 { s6_duration : N; s6_channels : N; s6_rate : N; s6_bitrate : N; s6_ms : bool; s6_version : N; s6_band : N; s6_frames : N }.
Definition sv6_read (strict : bool) (stream_len : N) (r : bytes) : res mpc_error sv6_props :=
  let? (w0, r) := io (read_le 4 r) in
  let? (w1, r) := io (read_le 4 r) in
  let? _u := io (read_exact 24 r) in
  let bitrate := N.land (N.shiftr w0 23) 0x1FF in
  let intensity := N.land (N.shiftr w0 22) 1 =? 1 in
  let ms := N.land (N.shiftr w0 21) 1 =? 1 in
  let version := N.land (N.shiftr w0 11) 0x3FF in
  if (version <? 4) || (6 <? version) then Err CVersion else
  let band := N.land (N.shiftr w0 6) 0x1F in
  let block := N.land w0 0x3F in
  let frames := if 5 <=? version then w1 else N.shiftr w1 16 in
  if strict && negb (bitrate =? 0) then Err CCbr else
  if strict && intensity then Err CIntensity else
  if strict && negb (block =? 1) then Err CBlock else
  let frames := if version <? 6 then frames - 1 else frames in
  if frames =? 0 then Ok (mk6 0 2 44100 bitrate ms version band frames) else
  let samples := frames * FRAME_LENGTH - SYNTH_DELAY in
  let? ms1000 := u64_mul samples 1000 in
  let? length := u64_div_round ms1000 44100 in
  let pcm := FRAME_LENGTH * frames - 576 in
  let rate := to_int U32_MAX (r_div (r_div (r_mul (r_mul (of_int stream_len) (8, 1)) (of_int 44100)) (of_int pcm)) (of_int FRAME_LENGTH)) in
  Ok (mk6 length 2 44100 rate ms version band frames).

(** ** Version 7: sv7/properties.rs *)
Inductive mpc_profile := PNone | PUnstable | PUnused | PBelowTelephone0 | PBelowTelephone1 | PTelephone | PThumb | PRadio | PStandard | PXtreme | PInsane | PBrainDead | PAboveBrainDead9 | PAboveBrainDead10.
(** lines 52-71, for nibbles *)
Definition profile_from (n : N) : option mpc_profile :=
  match n with
  | 0 => Some PNone | 1 => Some PUnstable | 2 | 3 | 4 => Some PUnused | 5 => Some PBelowTelephone0 | 6 => Some PBelowTelephone1 | 7 => Some PTelephone
  | 8 => Some PThumb | 9 => Some PRadio | 10 => Some PStandard | 11 => Some PXtreme | 12 => Some PInsane | 13 => Some PBrainDead | 14 => Some PAboveBrainDead9
  | 15 => Some PAboveBrainDead10 | _ => None
  end.
Inductive mpc_link := LVeryLow | LLoudEnd | LLoudStart | LLoudBoth.
(** lines 91-99 *)
Definition link_from (n : N) : option mpc_link := match n with 0 => Some LVeryLow | 1 => Some LLoudEnd | 2 => Some LLoudStart | 3 => Some LLoudBoth | _ => None end.
Record sv7_props := mk7 { s7_duration : N; s7_bitrate : N; s7_channels : N; s7_frames : N; s7_is : bool; s7_ms : bool; s7_band : N; s7_profile : mpc_profile; s7_link : mpc_link;
  s7_rate : N; s7_level : N; s7_title_gain : N; s7_title_peak : N; s7_album_gain : N; s7_album_peak : N; s7_gapless : bool; s7_last : N; s7_fast : bool; s7_encoder : N }.
(** f32: a non-negative rational, at least 2^-37 if not 0, to the nearest with 24 bits *)
Definition SCALE32 : N := 2 ^ 60.
Definition f32_round (x : rat) : rat :=
  let '(n, d) := x in
  if n =? 0 then (0, 1) else
  let unit := 2 ^ (N.log2 (n * SCALE32 / d) - 23) in
  (rne (n * SCALE32) (d * unit) * unit, SCALE32).
(** constants.rs: 64.82f32 *)
Definition GAIN_REF : rat := (8496087, 2 ^ 17).
(** lines 299-310: the reference less the gain over 100, in units of 1/256, rounded. A negative difference gives 0, as it is cast to an
    integer that is 0 or negative. *)
Definition replay_gain (g : N) : N :=
  if g =? 0 then 0 else
  let y := f32_round (g, 100) in
  if fst GAIN_REF * snd y <=? fst y * snd GAIN_REF then 0 else
  let d := f32_round (fst GAIN_REF * snd y - fst y * snd GAIN_REF, snd GAIN_REF * snd y) in
  let m := f32_round (fst d * 256, snd d) in
  let v := to_int 32767 (f32_round (fst m * 2 + snd m, snd m * 2)) in
  if v <? 32767 then v else 0.
(** lines 311-317 *)
Definition replay_peak (log_peak : N -> N) (p : N) : N := if p =? 0 then 0 else log_peak p.
(** lines 230-357 *)
Definition sv7_read (log_peak : N -> N) (stream_len : N) (r : bytes) : res mpc_error sv7_props :=
  let? (version, r) := io (read_u8 r) in
  if negb (N.land version 0xF =? 7) then Err CVersion else
  let? (frames, r) := io (read_le 4 r) in
  let? (chunk, r) := io (read_le 4 r) in
  let byte1 := N.shiftr (N.land chunk 0xFF000000) 24 in
  let is := N.shiftr (N.land byte1 0x80) 7 =? 1 in
  let ms := N.shiftr (N.land byte1 0x40) 6 =? 1 in
  let band := N.land byte1 0x3F in
  let byte2 := N.shiftr (N.land chunk 0xFF0000) 16 in
  match profile_from (N.shiftr (N.land byte2 0xF0) 4), link_from (N.shiftr (N.land byte2 0xC) 2) with
  | Some profile, Some link =>
      let rate := nth (N.to_nat (N.land byte2 3)) MPC_RATES 0 in
      let level := N.land chunk 0xFFFF in
      let? (title_peak, r) := io (read_le 2 r) in
      let? (title_gain, r) := io (read_le 2 r) in
      let? (album_peak, r) := io (read_le 2 r) in
      let? (album_gain, r) := io (read_le 2 r) in
      let? (chunk, r) := io (read_le 4 r) in
      let gapless := N.shiftr chunk 31 =? 1 in
      let last := if gapless then N.land (N.shiftr chunk 20) 0x7FF else 0 in
      let fast := N.land (N.shiftr chunk 19) 1 =? 1 in
      let? (encoder, r) := io (read_u8 r) in
      let props d b := mk7 d b 2 frames is ms band profile link rate level (replay_gain title_gain) (replay_peak log_peak title_peak)
                         (replay_gain album_gain) (replay_peak log_peak album_peak) gapless last fast encoder in
      if FRAME_LENGTH <? last then Err CLong else
      if rate =? 0 then Ok (props 0 0) else
      if frames =? 0 then Ok (props 0 0) else
      let per_frame := r_div (of_int FRAME_LENGTH) (of_int rate) in
      let length := r_mul (r_mul (of_int frames) per_frame) (1000, 1) in
      let? all := u64_mul frames FRAME_LENGTH in
      let? total := (if gapless then let? less := u64_sub FRAME_LENGTH last in u64_sub all less else u64_sub all SYNTH_DELAY) in
      let? bits := u64_mul stream_len 8 in
      let? bits := u64_mul bits rate in
      let? time := u64_mul total 1000 in
      let? b := u64_div bits time in
      Ok (props (to_int U64_MAX length) (b mod 2 ^ 32))
  | _, _ => Panic
  end.

(** ** Version 8: sv8/read.rs and sv8/properties.rs *)
(** read.rs 142-176: seven bits in each byte, up to nine bytes; the value, the number of bytes and the rest *)
Fixpoint read_size (n : nat) (count acc : N) (r : bytes) : res mpc_error (N * N * bytes) :=
  match r with
  | [] => Err CIo
  | c :: r =>
      match n with
      | O => Err CLong
      | S n =>
          let acc := acc * 128 + N.land c 0x7F in
          if N.land c 0x80 =? 0 then Ok (acc, count + 1, r) else read_size n (count + 1) acc r
      end
  end.
Definition upper (c : N) : bool := (65 <=? c) && (c <=? 90).
(** read.rs 108-140: the key of the next packet, the size of its content, the content as far as the file goes, and what follows. Reading
    from the content does not go beyond it, and what is left of it is skipped. *)
Definition next_packet (r : bytes) : res mpc_error (bytes * N * bytes * bytes) :=
  let? (key, r) := io (read_exact 2 r) in
  if negb (forallb upper key) then Err CKey else
  let? (size, count, r) := read_size 9 0 0 r in
  let capacity := size - (2 + count) in
  Ok (key, capacity, takeN capacity r, dropN capacity r).
Record stream_header := mkSH { sh_crc : N; sh_version : N; sh_samples : N; sh_silence : N; sh_rate : N; sh_bands : N; sh_channels : N; sh_ms : bool; sh_block : N }.
Definition sh_default : stream_header := mkSH 0 0 0 0 0 0 0 false 0.
(** properties.rs 97-151 *)
Definition read_sh (r : bytes) : res mpc_error stream_header :=
  let? (crc, r) := io (read_be 4 r) in
  let? (version, r) := io (read_u8 r) in
  let? (samples, _, r) := read_size 9 0 0 r in
  let? (silence, _, r) := read_size 9 0 0 r in
  let? (b1, r) := io (read_u8 r) in
  let? (b2, r) := io (read_u8 r) in
  Ok (mkSH crc version samples silence (nth (N.to_nat (N.shiftr (N.land b1 0xE0) 5)) MPC_RATES 0) (N.land b1 0x1F + 1)
        (N.shiftr b2 4 + 1) (N.land b2 8 =? 8) (4 ^ N.land b2 7)).
Record mpc_gain := mkRG { rg_version : N; rg_title_gain : N; rg_title_peak : N; rg_album_gain : N; rg_album_peak : N }.
Definition rg_default : mpc_gain := mkRG 0 0 0 0 0.
(** lines 182-204 *)
Definition read_rg (r : bytes) : res mpc_error mpc_gain :=
  let? (v, r) := io (read_u8 r) in
  let? (tg, r) := io (read_be 2 r) in
  let? (tp, r) := io (read_be 2 r) in
  let? (ag, r) := io (read_be 2 r) in
  let? (ap, r) := io (read_be 2 r) in
  Ok (mkRG v tg tp ag ap).
(** lines 223-251; the profile in eighths *)
Record encoder_info := mkEI { ei_profile : N; ei_pns : bool; ei_major : N; ei_minor : N; ei_build : N }.
Definition read_ei (r : bytes) : res mpc_error encoder_info :=
  let? (b, r) := io (read_u8 r) in
  let? (major, r) := io (read_u8 r) in
  let? (minor, r) := io (read_u8 r) in
  let? (build, r) := io (read_u8 r) in
  Ok (mkEI (N.shiftr (N.land b 0xFE) 1) (N.land b 1 =? 1) major minor build).
Record sv8_props := mk8 { s8_duration : N; s8_bitrate : N; s8_header : stream_header; s8_gain : mpc_gain; s8_encoder : option encoder_info }.
Definition sv8_default : sv8_props := mk8 0 0 sh_default rg_default None.
Record packets := mkPk { pk_header : option stream_header; pk_gain : option mpc_gain; pk_encoder : option encoder_info; pk_length : N; pk_end : bool }.
(** read.rs 32-49. Each round consumes three bytes, so that [fuel] does not run out. *)
Fixpoint read_packets (fuel : nat) (p : packets) (r : bytes) : res mpc_error packets :=
  match fuel with
  | O => Panic
  | S fuel =>
      match next_packet r with
      | Panic => Panic
      | Err _ => Ok p
      | Ok (key, capacity, content, after) =>
          let length := pk_length p + capacity in
          if U64_MAX <? length then Panic else
          if list_eqb key ($"SH") then let? x := read_sh content in read_packets fuel (mkPk (Some x) (pk_gain p) (pk_encoder p) length (pk_end p)) after
          else if list_eqb key ($"RG") then let? x := read_rg content in read_packets fuel (mkPk (pk_header p) (Some x) (pk_encoder p) length (pk_end p)) after
          else if list_eqb key ($"EI") then let? x := read_ei content in read_packets fuel (mkPk (pk_header p) (pk_gain p) (Some x) length (pk_end p)) after
          else if list_eqb key ($"SE") then Ok (mkPk (pk_header p) (pk_gain p) (pk_encoder p) length true)
          else read_packets fuel (mkPk (pk_header p) (pk_gain p) (pk_encoder p) length (pk_end p)) after
      end
  end.
(** properties.rs 254-304 *)
Definition sv8_finish (stream_len : N) (h : stream_header) (g : mpc_gain) (e : option encoder_info) : res mpc_error sv8_props :=
  if sh_samples h <? sh_silence h then Err CSilence else
  if sh_rate h =? 0 then Ok (mk8 0 0 h g e) else
  if sh_samples h =? 0 then Ok (mk8 0 0 h g e) else
  let total := sh_samples h - sh_silence h in
  if total =? 0 then Ok (mk8 0 0 h g e) else
  let? time := u64_mul total 1000 in
  let? length := u64_div_round time (sh_rate h) in
  let? bits := u64_mul stream_len 8 in
  let? bits := u64_mul bits (sh_rate h) in
  let? b := u64_div bits time in
  Ok (mk8 length (b mod 2 ^ 32) h g e).
(** read.rs 51-95 *)
Definition sv8_read (strict : bool) (r : bytes) : res mpc_error sv8_props :=
  let? p := read_packets (S (length r)) (mkPk None None None 0 false) r in
  let? h := (match pk_header p with Some h => Ok h | None => if strict then Err CHeader else Ok sh_default end) in
  let? g := (match pk_gain p with Some g => Ok g | None => if strict then Err CGain else Ok rg_default end) in
  if (pk_length p =? 0) && strict then Err CAudio else
  if negb (pk_end p) && strict then Err CEnd else
  sv8_finish (pk_length p) h g (pk_encoder p).

(** ** The file: read.rs *)
Inductive mpc_version := Sv8 | Sv7 | Sv4to6.
Inductive mpc_props := P8 (p : sv8_props) | P7 (p : sv7_props) | P6 (p : sv6_props).
(** mod.rs 77-93; [mc_version] is what [stream_version()] gives *)
Record mpc_file := mkMC { mc_version : mpc_version; mc_id3v2 : option id3v2_tag; mc_id3v1 : option id3v1; mc_ape : option ape_tag; mc_props : mpc_props }.
(** sv*/properties.rs: From<..> for FileProperties *)
Definition mpc_file_props (p : mpc_props) : file_props :=
  match p with
  | P8 p => mkFileP (s8_duration p) (Some (s8_bitrate p)) (Some (s8_bitrate p)) (Some (sh_rate (s8_header p))) None (Some (sh_channels (s8_header p))) None
  | P7 p => mkFileP (s7_duration p) (Some (s7_bitrate p)) (Some (s7_bitrate p)) (Some (s7_rate p)) None (Some (s7_channels p)) None
  | P6 p => mkFileP (s6_duration p) (Some (s6_bitrate p)) (Some (s6_bitrate p)) (Some (s6_rate p)) None (Some (s6_channels p)) None
  end.
Definition mpc_tag {E A} (r : res E A) : res mpc_error A := match r with Ok x => Ok x | Err _ => Err CTag | Panic => Panic end.
Definition mpc_less (a b : N) : res mpc_error N := if a <? b then Err CSize else Ok (a - b).
(** lines 14-141 *)
Definition mpc_read (inflate : bytes -> option bytes) (log_peak : N -> N) (o : mopts) (data : bytes) : res mpc_error mpc_file :=
  let? (h, content, past) := mpc_tag (find_id3v2 data 0 (mo_tags o) None) in
  let? (v2, stream_len) := (match h, content with
    | Some h, Some c =>
        let? n := mpc_tag (full_tag_size h) in
        let? stream_len := mpc_less (lenN data) n in
        let? (t, _) := mpc_tag (parse_id3v2 inflate h (mo_frames o) c) in
        Ok (Some t, stream_len)
    | _, _ => Ok (None, lenN data)
    end) in
  let (p1, found) := find_id3v1 data in
  let? v1 := (if found && mo_tags o then let? t := mpc_tag (v1_parse (dropN p1 data) (mo_strict o)) in Ok (Some t) else Ok None) in
  let? stream_len := (if found then mpc_less stream_len 128 else Ok stream_len) in
  let? (_, lyrics, pos) := mpc_tag (find_lyrics3v2 data p1) in
  let? stream_len := mpc_less stream_len lyrics in
  match seek_back pos 32 with
  | None => Err CIo
  | Some s =>
      let? (t, h, r) := mpc_tag (read_ape_tag data true (fo_cover (mo_frames o)) (mo_tags o) (rd_at data s)) in
      let? stream_len := (match h with
        | Some (size, _) => if fst r <? size then Err CSize else mpc_less stream_len size
        | None => Ok stream_len
        end) in
      let? (magic, rest) := io (read_exact 4 (dropN past data)) in
      let? p := (if mo_props o then
          if list_eqb magic ($"MPCK") then let? p := sv8_read (mo_strict o) rest in Ok (P8 p)
          else if list_eqb (takeN 3 magic) ($"MP+") then let? p := sv7_read log_peak stream_len (dropN (past + 3) data) in Ok (P7 p)
          else let? p := sv6_read (mo_strict o) stream_len (dropN past data) in Ok (P6 p)
        else Ok (P8 sv8_default)) in
      Ok (mkMC Sv8 v2 v1 t p)
  end.
