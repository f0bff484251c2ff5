(** Model of lofty/src/aac: header.rs, read.rs and properties.rs (ADTS), and of ChannelMask::from_mp4_channels in
    properties/channel_mask.rs. A reader is the file and a position, as in the model of MPEG; only the end of the file makes a read fail.
    Integer overflow panics, as in a build with checks. The loop that counts the frames need not end: it gets a number of rounds, and
    [Panic] stands for using them up too. *)
From Verif Require Export MpegModel.
From Verif Require Import Id3v1Model ApeModel FrameReadModel Id3v2HeaderModel.

Inductive aac_error := AcIo | AcTag | AcSize | AcIndex | AcFrame | AcRate | AcBitrate.

(** mp4/properties.rs 767-769 *)
Definition AAC_RATES : list N := [96000; 88200; 64000; 48000; 44100; 32000; 24000; 22050; 16000; 12000; 11025; 8000; 7350; 0; 0].
(** mpeg/header.rs 165-175 and mp4/properties.rs: the variants that are used here *)
Inductive aac_version := AV2 | AV4.
Inductive object_type := AacMain | AacLowComplexity | AacScalableSampleRate | AacLongTermPrediction.

(** header.rs 11-24 *)
Record adts := mkAdts { a_version : aac_version; a_type : object_type; a_rate : N; a_channels : N; a_copyright : bool; a_original : bool;
  a_len : N; a_bitrate : N; a_bytes : bytes; a_crc : bool }.
Definition AAC_MASK : N := 0xFFFFFFE0.
(** lines 27-128; the reader is left after the 7 bytes, or two bytes further. The products are below 2^32. *)
Definition adts_read (r : bytes) : res aac_error adts :=
  match read_exact 7 r with
  | None => Err AcIo
  | Some (h, _) =>
      let b i := nth i h 0 in
      let index := N.land (N.shiftr (b 2%nat) 2) 15 in
      if index =? 15 then Err AcIndex else
      let rate := nth (N.to_nat index) AAC_RATES 0 in
      let len := N.lor (N.lor (N.shiftl (N.land (b 3%nat) 3) 11) (N.shiftl (b 4%nat) 3)) (N.shiftr (b 5%nat) 5) in
      let ty := N.land (N.shiftr (b 2%nat) 6) 3 in
      Ok (mkAdts (if N.land (N.shiftr (b 1%nat) 3) 1 =? 0 then AV4 else AV2)
                 (if ty =? 0 then AacMain else if ty =? 1 then AacLowComplexity else if ty =? 2 then AacScalableSampleRate else AacLongTermPrediction)
                 rate
                 (N.lor (N.shiftl (N.land (b 2%nat) 1) 2) (N.land (N.shiftr (b 3%nat) 6) 3))
                 (N.land (N.shiftr (b 3%nat) 4) 1 =? 1)
                 (N.land (N.shiftr (b 3%nat) 5) 1 =? 1)
                 len (len * rate / 1024 * 8 / 1024) h (N.land (b 1%nat) 1 =? 0))
  end.
Definition adts_size (h : adts) : N := if a_crc h then 9 else 7.

(** read.rs 156-199: the frame and where it ends. Each round goes forward. *)
Fixpoint find_adts (fuel : nat) (data : bytes) (pos : N) : res aac_error (option (adts * N)) :=
  match fuel with
  | O => Panic
  | S fuel =>
      match search_for_frame_sync (dropN pos data) with
      | None => Ok None
      | Some rel =>
          let start := pos + rel in
          let? h := adts_read (dropN start data) in
          match cmp_header data (start + adts_size h) (adts_size h) (a_len h) (be_dec (takeN 4 (a_bytes h))) AAC_MASK with
          | (CEqual, _) => Ok (Some (h, start + a_len h))
          | (CUndetermined, _) => Ok None
          | (CNotEqual, p) => find_adts fuel data p
          end
      end
  end.
Definition find_next (data : bytes) (pos : N) : res aac_error (option (adts * N)) := find_adts (S (length data)) data pos.

(** mod.rs and properties.rs 11-21 *)
Record aac_props := mkAP { ap_version : aac_version; ap_type : object_type; ap_duration : N; ap_overall : N; ap_audio : N; ap_rate : N;
  ap_channels : N; ap_mask : option N; ap_copyright : bool; ap_original : bool }.
Record aac_file := mkAF { af_id3v2 : option id3v2_tag; af_id3v1 : option id3v1; af_props : option aac_props }.
(** properties/channel_mask.rs 153-188; the bits are those of ChannelMask (lines 32-70) *)
Definition mp4_mask (channels : N) : option N :=
  let front := 0x7 in let back := 0x30 in let side := 0x600 in let lfe := 0x8 in
  if channels =? 1 then Some 0x4 else if channels =? 2 then Some 0x3 else if channels =? 3 then Some front
  else if channels =? 4 then Some (N.lor 0x3 back) else if channels =? 5 then Some (N.lor front back)
  else if channels =? 6 then Some (N.lor (N.lor front back) lfe)
  else if channels =? 7 then Some (N.lor (N.lor (N.lor front side) back) lfe) else None.
(** properties.rs 98-130; a duration is in milliseconds *)
Definition aac_properties (h : adts) (bitrate stream_len : N) : res aac_error aac_props :=
  let make d b := mkAP (a_version h) (a_type h) d b b (a_rate h) (a_channels h) (mp4_mask (a_channels h)) (a_copyright h) (a_original h) in
  if 0 <? bitrate then (if U64_MAX <? stream_len * 8 then Panic else Ok (make (stream_len * 8 / bitrate) bitrate)) else Ok (make 0 0).
(** properties.rs 84-96 *)
Definition aac_file_props (p : aac_props) : file_props :=
  mkFileP (ap_duration p) (Some (ap_overall p)) (Some (ap_audio p)) (Some (ap_rate p)) None (Some (ap_channels p)) (ap_mask p).

Definition aac_tag {E A} (r : res E A) : res aac_error A := match r with Ok x => Ok x | Err _ => Err AcTag | Panic => Panic end.
(** read.rs 42-105: the tag, the first frame with its end, and what is left of the length of the stream. Each round goes forward. When
    no frame is found the reader is at the end of the file, and the loop ends. *)
Fixpoint aac_lead (inflate : bytes -> option bytes) (fuel : nat) (data : bytes) (o : mopts) (v2 : option id3v2_tag) (stream_len pos : N)
  : res aac_error (option id3v2_tag * option (adts * N) * N) :=
  match fuel with
  | O => Panic
  | S fuel =>
      match read_exact 4 (dropN pos data) with
      | None => Ok (v2, None, stream_len)
      | Some (four, _) =>
          if list_eqb (takeN 3 four) ($"ID3") then
            let (hr, rest) := header_parse (dropN pos data) in
            let? h := aac_tag hr in
            if stream_len <? h_size h then Err AcSize else
            let stream_len := stream_len - h_size h in
            let skip v2 rest :=
              let p := lenN data - lenN rest in
              if tf_footer (h_flags h) then
                if stream_len <? 10 then Err AcSize else aac_lead inflate fuel data o v2 (stream_len - 10) (p + 10)
              else aac_lead inflate fuel data o v2 stream_len p in
            if mo_tags o then
              let? (t, rest) := aac_tag (parse_id3v2 inflate h (mo_frames o) rest) in
              match v2 with
              | Some old => aac_lead inflate fuel data o (Some (add_frames old t)) stream_len (lenN data - lenN rest)
              | None => skip (Some t) rest
              end
            else skip v2 rest
          else
            let? f := find_next data pos in
            Ok (v2, f, stream_len)
      end
  end.
(** lines 132-144: the sum of the bit rates and the number of frames *)
Fixpoint count_frames (rounds : nat) (data : bytes) (pos sum count : N) : res aac_error (N * N) :=
  match rounds with
  | O => Panic
  | S rounds =>
      let? f := find_next data pos in
      match f with
      | None => Ok (sum, count)
      | Some (h, frame_end) =>
          if (U32_MAX <? sum + a_bitrate h) || (U32_MAX <? count + 1) then Panic
          else count_frames rounds data frame_end (sum + a_bitrate h) (count + 1)
      end
  end.
(** lines 15-152 *)
Definition aac_read (inflate : bytes -> option bytes) (rounds : nat) (o : mopts) (data : bytes) : res aac_error aac_file :=
  match skip_zeros data 0 with
  | None => Err AcIo
  | Some pos =>
      let? (v2, first, stream_len) := aac_lead inflate (S (length data)) data o None (lenN data) pos in
      let (p1, found) := find_id3v1 data in
      let? v1 := (if found && mo_tags o then let? t := aac_tag (v1_parse (dropN p1 data) (mo_strict o)) in Ok (Some t) else Ok None) in
      let? stream_len := (if found then if stream_len <? 128 then Err AcSize else Ok (stream_len - 128) else Ok stream_len) in
      if mo_props o then
        match first with
        | None => Err AcFrame
        | Some (h, frame_end) =>
            if (a_rate h =? 0) && mo_strict o then Err AcRate
            else if a_bitrate h =? 0 then Err AcBitrate
            else
              let? (sum, count) := count_frames rounds data frame_end (a_bitrate h) 1 in
              let? p := aac_properties h (sum / count) stream_len in
              Ok (mkAF v2 v1 (Some p))
        end
      else Ok (mkAF v2 v1 None)
  end.
