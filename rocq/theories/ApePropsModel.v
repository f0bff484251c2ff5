(** Model of lofty/src/ape/properties.rs and of the rest of ape/read.rs: the audio properties of APE files, and the whole result of
    reading one. The tags and the lengths are those of [ape_read_from] in [ApeModel.v]. The reader is the bytes from "MAC " on; only the
    end of the file makes a read fail, and seeking past it does not. f64 arithmetic as in [AiffModel.v]; a division by a length of zero
    gives infinity, or NaN for zero bytes, and their conversions to u32 are written out. *)
From Verif Require Import Base Str Id3v1Model Id3v2HeaderModel FrameReadModel AiffModel MpegModel.
From Verif Require Import ApeModel.

Inductive mac_error := GIo | GVersion | GDescriptor | GHeader | GChannels | GFrames | GTag (e : ape_error).
(** lines 10-21; durations in milliseconds *)
Record mac_props := mkMac { mac_version : N; mac_duration : N; mac_overall : N; mac_audio : N; mac_rate : N; mac_depth : N; mac_channels : N }.
Definition mac_default : mac_props := mkMac 0 0 0 0 0 0 0.
Definition or_mac {A} (e : mac_error) (o : option A) : res mac_error A := match o with Some x => Ok x | None => Err e end.

(** lines 216-237 *)
Definition mac_verify (frames channels : N) : res mac_error unit :=
  if negb ((1 <=? channels) && (channels <=? 32)) then Err GChannels else if frames =? 0 then Err GFrames else Ok tt.
(** lines 239-266. [length] is positive or zero. *)
Definition mac_kbps (size : N) (length : rat) : N :=
  if fst length =? 0 then (if size =? 0 then 0 else U32_MAX)
  else to_int U32_MAX (r_add (r_div (r_mul (of_int size) (8, 1)) length) (1, 2)).
Definition mac_samples (frames final per_frame : N) : N := if 1 <? final then final + per_frame * (frames - 1) else final.
Definition mac_times (p : mac_props) (file_len frames final per_frame stream_len : N) : mac_props :=
  if 0 <? mac_rate p then
    let length := r_div (r_mul (of_int (mac_samples frames final per_frame)) (1000, 1)) (of_int (mac_rate p)) in
    mkMac (mac_version p) (to_int U64_MAX (r_add length (1, 2))) (mac_kbps file_len length) (mac_kbps stream_len length) (mac_rate p) (mac_depth p) (mac_channels p)
  else p.
(** lines 147-160 and 199-213 *)
Definition mac_finish (strict : bool) (p : mac_props) (file_len frames final per_frame stream_len : N) : res mac_error mac_props :=
  match mac_verify frames (mac_channels p) with
  | Err e => if strict then Err e else Ok p
  | Panic => Panic
  | Ok _ => Ok (mac_times p file_len frames final per_frame stream_len)
  end.

(** lines 96-160 *)
Definition mac_new (r : bytes) (version stream_len file_len : N) (strict : bool) : res mac_error mac_props :=
  let? (descriptor, r) := or_mac GDescriptor (read_exact 46 r) in
  let dlen := le_dec (takeN 4 (dropN 2 descriptor)) in
  let r := if 52 <? dlen then dropN (dlen - 52) r else r in
  let? (header, _) := or_mac GHeader (read_exact 24 r) in
  let? (per_frame, h) := or_mac GIo (read_le 4 (dropN 4 header)) in
  let? (final, h) := or_mac GIo (read_le 4 h) in
  let? (frames, h) := or_mac GIo (read_le 4 h) in
  let? (depth, h) := or_mac GIo (read_le 2 h) in
  let? (channels, h) := or_mac GIo (read_le 2 h) in
  let? (rate, h) := or_mac GIo (read_le 4 h) in
  mac_finish strict (mkMac version 0 0 0 rate (depth mod 256) (channels mod 256)) file_len frames final per_frame stream_len.
(** lines 162-213 *)
Definition mac_per_frame (version level : N) : N :=
  if 3950 <=? version then 73728 * 4 else if (3900 <=? version) || ((3800 <=? version) && (4000 <=? level)) then 73728 else 9216.
Definition mac_old (r : bytes) (version stream_len file_len : N) (strict : bool) : res mac_error mac_props :=
  let? (header, _) := or_mac GHeader (read_exact 26 r) in
  let? (level, h) := or_mac GIo (read_le 2 header) in
  let? (flags, h) := or_mac GIo (read_le 2 h) in
  let depth := if N.land flags 1 =? 1 then 8 else if N.land flags 8 =? 8 then 24 else 16 in
  let? (channels, h) := or_mac GIo (read_le 2 h) in
  let? (rate, h) := or_mac GIo (read_le 4 h) in
  let? (_, h) := or_mac GIo (read_exact 8 h) in
  let? (frames, h) := or_mac GIo (read_le 4 h) in
  let? (final, h) := or_mac GIo (read_le 4 h) in
  mac_finish strict (mkMac version 0 0 0 rate depth (channels mod 256)) file_len frames final (mac_per_frame version level) stream_len.
(** lines 73-94 *)
Definition mac_read (r : bytes) (stream_len file_len : N) (strict : bool) : res mac_error mac_props :=
  let? (version, r) := or_mac GVersion (read_le 2 r) in
  if 3980 <=? version then mac_new r version stream_len file_len strict else mac_old r version stream_len file_len strict.

(** ** The whole file: ape/read.rs 15-170. A panic of the ID3v2 parser comes after the check of the length. *)
Record mac_file := mkMacF { mc_v2 : option id3v2_tag; mc_v1 : option id3v1; mc_ape : option ape_tag; mc_props : mac_props }.
Section Whole.
  Variable inflate : bytes -> option bytes.
  Variable o : mopts.
  Definition front_parsed (data : bytes) : option (res ferr (id3v2_tag * bytes)) :=
    match find_id3v2 data 0 (mo_tags o) None with
    | Ok (Some h, Some c, _) => match full_tag_size h with
                                | Ok n => if lenN data <? n then None else Some (parse_id3v2 inflate h (mo_frames o) c)
                                | _ => None
                                end
    | _ => None
    end.
  Definition mac_file_read (data : bytes) : res mac_error mac_file :=
    match front_parsed data with
    | Some Panic => Panic
    | parsed =>
        match ape_read_from (fun h c => match parse_id3v2 inflate h (mo_frames o) c with Ok _ => true | _ => false end) data (fo_cover (mo_frames o)) (mo_tags o) (mo_strict o) with
        | Ok f =>
            let? p := (if mo_props o then mac_read (dropN (af_mac f) data) (af_stream_len f) (af_file_len f) (mo_strict o) else Ok mac_default) in
            Ok (mkMacF (match parsed with Some (Ok (t, _)) => Some t | _ => None end) (af_v1 f) (af_ape f) p)
        | Err e => Err (GTag e)
        | Panic => Panic
        end
    end.
End Whole.
