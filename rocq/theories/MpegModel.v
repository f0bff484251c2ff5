(** Model of lofty/src/mpeg: header.rs, constants.rs, read.rs and properties.rs (the getters of the properties and of the file are not repeated).
    A reader is the file and a position; only the end of the file makes a read fail. *)
From Verif Require Export Base Str Mode.
From Verif Require Import Id3v1Model ApeModel FrameReadModel MathModel Id3v2HeaderModel.

Inductive mpeg_error := MIo | MTag | MFake | MSize | MNoFrame | MXing.

(** ** constants.rs *)
Definition BITRATES : list (list (list N)) :=
  [[[0; 32; 64; 96; 128; 160; 192; 224; 256; 288; 320; 352; 384; 416; 448; 0];
    [0; 32; 48; 56; 64; 80; 96; 112; 128; 160; 192; 224; 256; 320; 384; 0];
    [0; 32; 40; 48; 56; 64; 80; 96; 112; 128; 160; 192; 224; 256; 320; 0]];
   [[0; 32; 48; 56; 64; 80; 96; 112; 128; 144; 160; 176; 192; 224; 256; 0];
    [0; 8; 16; 24; 32; 40; 48; 56; 64; 80; 96; 112; 128; 144; 160; 0];
    [0; 8; 16; 24; 32; 40; 48; 56; 64; 80; 96; 112; 128; 144; 160; 0]]].
Definition SAMPLE_RATES : list (list N) := [[44100; 48000; 32000]; [22050; 24000; 16000]; [11025; 12000; 8000]].
Definition SAMPLES : list (list N) := [[384; 384]; [1152; 1152]; [1152; 576]].
Definition SIDE_INFORMATION_SIZES : list (list N) := [[32; 32; 32; 17]; [17; 17; 17; 9]; [17; 17; 17; 9]].
Definition PADDING_SIZES : list N := [4; 1; 1].

(** ** header.rs *)
(** lines 9-11 *)
Definition verify_frame_sync (a b : N) : bool := (a =? 0xFF) && (N.shiftr b 5 =? 7).
(** lines 18-44: the index of the first pair that is a frame sync. *)
Fixpoint sync_scan (prev : N) (r : bytes) (index : N) : option N :=
  match r with
  | [] => None
  | b :: r => if verify_frame_sync prev b then Some index else sync_scan b r (index + 1)
  end.
Definition search_for_frame_sync (r : bytes) : option N :=
  match r with [] => None | a :: r => sync_scan a r 0 end.

(** lines 165-213 *)
Inductive mpeg_version := MV1 | MV2 | MV2_5.
Inductive layer := Layer1 | Layer2 | Layer3.
Inductive channel_mode := Stereo | JointStereo | DualChannel | SingleChannel.
Inductive emphasis := MS5015 | EReserved | CCIT_J17.
(** lines 216-229 *)
Record mheader := mkMH { m_rate : N; m_len : N; m_data_start : N; m_samples : N; m_bitrate : N; m_version : mpeg_version;
  m_layer : layer; m_mode : channel_mode; m_ext : option N; m_copyright : bool; m_original : bool; m_emphasis : option emphasis }.
Definition version_num (v : mpeg_version) : nat := match v with MV1 => 0 | MV2 => 1 | MV2_5 => 2 end.
Definition layer_num (l : layer) : nat := match l with Layer1 => 0 | Layer2 => 1 | Layer3 => 2 end.
Definition mode_num (m : channel_mode) : nat := match m with Stereo => 0 | JointStereo => 1 | DualChannel => 2 | SingleChannel => 3 end.
Definition version_eqb (a b : mpeg_version) : bool := Nat.eqb (version_num a) (version_num b).
Definition layer_eqb (a b : layer) : bool := Nat.eqb (layer_num a) (layer_num b).
Definition nth2 (l : list (list N)) (i j : nat) : N := nth j (nth i l []) 0.
(** lines 232-321. The product of line 318 is below 2^32. *)
Definition header_read (data : N) : option mheader :=
  match (let v := N.land (N.shiftr data 19) 3 in if v =? 0 then Some MV2_5 else if v =? 2 then Some MV2 else if v =? 3 then Some MV1 else None) with
  | None => None
  | Some version =>
      let version_index := match version with MV1 => 0 | _ => 1 end%nat in
      match (let l := N.land (N.shiftr data 17) 3 in if l =? 1 then Some Layer3 else if l =? 2 then Some Layer2 else if l =? 3 then Some Layer1 else None) with
      | None => None
      | Some layer =>
          let layer_index := layer_num layer in
          let bitrate := nth (N.to_nat (N.land (N.shiftr data 12) 15)) (nth layer_index (nth version_index BITRATES []) []) 0 in
          if bitrate =? 0 then None else
          let rate_index := N.land (N.shiftr data 10) 3 in
          if rate_index =? 3 then None else
          let rate := nth2 SAMPLE_RATES (version_num version) (N.to_nat rate_index) in
          let padding := if N.land (N.shiftr data 9) 1 =? 1 then nth layer_index PADDING_SIZES 0 else 0 in
          let m := N.land (N.shiftr data 6) 3 in
          let mode := if m =? 0 then Stereo else if m =? 1 then JointStereo else if m =? 2 then DualChannel else SingleChannel in
          let e := N.land data 3 in
          let samples := nth2 SAMPLES layer_index version_index in
          Some (mkMH rate (samples * bitrate * 125 / rate + padding)
                     (nth2 SIDE_INFORMATION_SIZES version_index (mode_num mode) + 4)
                     samples bitrate version layer mode
                     (match mode with JointStereo => Some (N.land (N.shiftr data 4) 3) | _ => None end)
                     (N.land (N.shiftr data 3) 1 =? 1) (N.land (N.shiftr data 2) 1 =? 1)
                     (if e =? 0 then None else if e =? 1 then Some MS5015 else if e =? 2 then Some EReserved else Some CCIT_J17))
      end
  end.
(** lines 324-328 *)
Definition header_cmp (a b : mheader) : bool :=
  version_eqb (m_version a) (m_version b) && layer_eqb (m_layer a) (m_layer b) && (m_rate a =? m_rate b).

(** lines 103-161. The result and the position left; [pos] is where the reader is. A failed read leaves the reader at the end. *)
Inductive cmp_result := CEqual | CUndetermined | CNotEqual.
Definition HEADER_MASK : N := 0xFFFE0C00.
Definition cmp_header (data : bytes) (pos header_size first_len first_bytes mask : N) : cmp_result * N :=
  let p := pos + (first_len - header_size) in
  match read_be 4 (dropN p data) with
  | None => (CUndetermined, N.max p (lenN data))
  | Some (second, _) => (if N.land first_bytes mask =? N.land second mask then CEqual else CNotEqual, p)
  end.

(** lines 51-101. [rev_scan i frame_sync[0] bs buf]: [bs] is what is left of the reversed buffer. Result: the offset in the buffer and the header. *)
Definition REV_FRAME_SEARCH_BOUNDS : N := 1024.
Fixpoint rev_scan (bounds : N) (i : N) (s0 : N) (bs buf : bytes) : option (N * mheader) :=
  match bs with
  | [] => None
  | b :: bs =>
      let next := rev_scan bounds (i + 1) b bs buf in
      if verify_frame_sync b s0 then
        let start := bounds - (i + 1) in
        if lenN buf <? start + 4 then next
        else match header_read (be_dec [b; s0; nth (N.to_nat (start + 2)) buf 0; nth (N.to_nat (start + 3)) buf 0]) with
             | None => next
             | Some h => Some (start, h)
             end
      else next
  end.
Definition rev_search (data : bytes) (pos : N) : N * option mheader :=
  let bounds := N.min pos REV_FRAME_SEARCH_BOUNDS in
  let pos := pos - bounds in
  let buf := takeN bounds (dropN pos data) in
  match rev_scan bounds 0 0 (rev buf) buf with
  | Some (start, h) => (pos + start, Some h)
  | None => (pos, None)
  end.

(** lines 331-410. *)
Inductive vbr_type := Xing | Info | Vbri.
Record vbr_header := mkVbr { vb_type : vbr_type; vb_frames : N; vb_size : N }.
Definition vbr_read (r : bytes) : res mpeg_error (option vbr_header) :=
  let len := lenN r in
  match read_exact 4 r with
  | None => Err MIo
  | Some (h, r) =>
      let xing := list_eqb h ($"Xing") in
      if xing || list_eqb h ($"Info") then
        if len <? 16 then Err MXing else
        match read_exact 4 r with
        | None => Err MIo
        | Some (flags, r) =>
            if negb (N.land (nth 3 flags 0) 3 =? 3) then Ok None else
            match read_be 4 r with
            | None => Err MIo
            | Some (frames, r) =>
                match read_be 4 r with
                | None => Err MIo
                | Some (size, _) => Ok (Some (mkVbr (if xing then Xing else Info) frames size))
                end
            end
        end
      else if list_eqb h ($"VBRI") then
        if len <? 32 then Err MXing else
        match read_exact 6 r with
        | None => Err MIo
        | Some (_, r) =>
            match read_be 4 r with
            | None => Err MIo
            | Some (size, r) =>
                match read_be 4 r with
                | None => Err MIo
                | Some (frames, _) => Ok (Some (mkVbr Vbri frames size))
                end
            end
        end
      else Ok None
  end.
Definition vbr_valid (v : vbr_header) : bool := (0 <? vb_frames v) && (0 <? vb_size v).

(** ** properties.rs; durations in milliseconds *)
(** lines 13-26 *)
Record mprops := mkMP { p_version : mpeg_version; p_layer : layer; p_duration : N; p_overall : N; p_audio : N; p_rate : N; p_channels : N;
  p_mode : channel_mode; p_ext : option N; p_copyright : bool; p_original : bool; p_emphasis : option emphasis }.
Definition mprops_default : mprops := mkMP MV1 Layer3 0 0 0 0 0 Stereo None false false None.
(** lines 28-59: duration, overall bitrate, audio bitrate, sample rate, bit depth, channels, channel mask (bits of ChannelMask: front left 1, front right 2, front centre 4) *)
Record file_props := mkFileP { fp_duration : N; fp_overall : option N; fp_audio : option N; fp_rate : option N; fp_depth : option N;
  fp_channels : option N; fp_mask : option N }.
Definition to_file_props (p : mprops) : file_props :=
  mkFileP (p_duration p) (Some (p_overall p)) (Some (p_audio p)) (Some (p_rate p)) None (Some (p_channels p))
    (match p_mode p with SingleChannel => Some 4 | Stereo | JointStereo => Some 3 | DualChannel => None end).

(** lines 190-214: the last frame and its offset. The position goes down in each round. Running out of fuel, here and below, is a
    [Panic]; C170 shows that it does not happen. *)
Fixpoint last_frame (fuel : nat) (data : bytes) (first : mheader) (pos : N) : res mpeg_error (option (N * mheader)) :=
  match fuel with
  | O => Panic
  | S fuel =>
      if pos =? 0 then Ok None else
      match rev_search data pos with
      | (pos, Some h) => if header_cmp h first then Ok (Some (pos, h)) else last_frame fuel data first pos
      | (pos, None) => last_frame fuel data first pos
      end
  end.
Definition div64 {E} (a b : N) : res E N := if b =? 0 then Panic else Ok (a / b).
Definition round64 {E} (a b : N) : res E N := match div_round U64_MAX a b with Ok x => Ok x | _ => Panic end.
Definition mul64 {E} (a b : N) : res E N := if U64_MAX <? a * b then Panic else Ok (a * b).
(** [as u32] *)
Definition u32 (n : N) : N := n mod 2 ^ 32.
(** lines 123-237 *)
Definition read_properties (data : bytes) (first : mheader) (first_offset last_offset : N) (vbr : option vbr_header) (file_length : N)
  : res mpeg_error mprops :=
  let make duration overall audio :=
    mkMP (m_version first) (m_layer first) duration overall audio (m_rate first)
      (match m_mode first with SingleChannel => 1 | _ => 2 end) (m_mode first) (m_ext first) (m_copyright first) (m_original first) (m_emphasis first) in
  let estimate (is_cbr : bool) :=
    if m_bitrate first =? 0 then Ok (make 0 0 0) else
    let? last := last_frame (S (N.to_nat last_offset)) data first last_offset in
    match last with
    | None => Ok (make 0 0 (if is_cbr then m_bitrate first else 0))
    | Some (pos, h) =>
        let stream_end := pos + m_len h in
        if stream_end <? first_offset then Ok (make 0 0 (if is_cbr then m_bitrate first else 0)) else
        let? bits := mul64 (stream_end - first_offset) 8 in
        let? length := round64 bits (m_bitrate first) in
        Ok (make length (if length =? 0 then 0 else u32 (N.min U64_MAX (file_length * 8) / length)) (m_bitrate first))
    end in
  match vbr with
  | None => estimate false
  | Some v =>
      if (0 <? m_rate first) && vbr_valid v then
        let? length := round64 (m_samples first * 1000 * vb_frames v) (m_rate first) in
        let? bits := mul64 file_length 8 in
        let? overall := div64 bits length in
        let? abits := mul64 (vb_size v) 8 in
        let? audio := div64 abits length in
        Ok (make length (u32 overall) (u32 audio))
      else estimate (match vb_type v with Info => true | _ => false end)
  end.

(** ** read.rs *)
(** lines 228-255. [pos] grows by at least four in each round. *)
Fixpoint find_next_frame (fuel : nat) (data : bytes) (pos : N) : res mpeg_error (option (mheader * N)) :=
  match fuel with
  | O => Panic
  | S fuel =>
      match search_for_frame_sync (dropN pos data) with
      | None => Ok None
      | Some rel =>
          let start := pos + rel in
          match read_be 4 (dropN start data) with
          | None => Err MIo
          | Some (bytes, _) =>
              match header_read bytes with
              | None => find_next_frame fuel data (start + 4)
              | Some h =>
                  match cmp_header data (start + 4) 4 (m_len h) bytes HEADER_MASK with
                  | (CEqual, _) => Ok (Some (h, start))
                  | (CUndetermined, _) => Ok None
                  | (CNotEqual, p) => find_next_frame fuel data p
                  end
              end
          end
      end
  end.

Record mopts := mkMO { mo_frames : fopts; mo_tags : bool; mo_props : bool; mo_junk : N }.
Definition mo_strict (o : mopts) : bool := match fo_mode (mo_frames o) with Strict => true | _ => false end.
(** mod.rs: MpegFile *)
Record mpeg_file := mkMF { mf_id3v2 : option id3v2_tag; mf_id3v1 : option id3v1; mf_ape : option ape_tag; mf_props : mprops }.

Definition tag_res {E A} (r : res E A) : res mpeg_error A := match r with Ok x => Ok x | Err _ => Err MTag | Panic => Panic end.
(** lines 55-57 *)
Definition add_frames (t new : id3v2_tag) : id3v2_tag :=
  mkT (t_version t) (t_flags t) (fold_left (fun l f => fst (fl_insert f l)) (t_frames new) (t_frames t)).
(** lines 36-153: ID3v2 tag, APE tag, first frame. Each round moves forward by at least ten bytes. *)
Fixpoint lead (inflate : bytes -> option bytes) (fuel : nat) (data : bytes) (o : mopts) (v2 : option id3v2_tag) (ape : option ape_tag) (pos : N)
  : res mpeg_error (option id3v2_tag * option ape_tag * option (mheader * N)) :=
  match fuel with
  | O => Panic
  | S fuel =>
      match read_exact 4 (dropN pos data) with
      | None => Ok (v2, ape, None)
      | Some (four, _) =>
          if list_eqb (takeN 3 four) ($"ID3") then
            let (hr, rest) := header_parse (dropN pos data) in
            let? h := tag_res hr in
            let p := lenN data - lenN rest in
            let skip := if tf_footer (h_flags h) then 10 else 0 in
            if mo_tags o then
              let? (t, rest) := tag_res (parse_id3v2 inflate h (mo_frames o) rest) in
              let p := lenN data - lenN rest in
              match v2 with
              | Some old => lead inflate fuel data o (Some (add_frames old t)) ape p
              | None => lead inflate fuel data o (Some t) ape (p + skip)
              end
            else lead inflate fuel data o v2 ape (p + h_size h + skip)
          else if list_eqb four ($"APET") then
            match read_exact 4 (dropN (pos + 4) data) with
            | None => Err MIo
            | Some (more, _) =>
                if list_eqb more ($"AGEX") then
                  let? (size, count, r) := tag_res (read_ape_header data false (rd_at data (pos + 8))) in
                  if mo_tags o then
                    let? (t, r) := tag_res (read_with_header size count (fo_cover (mo_frames o)) r) in
                    lead inflate fuel data o v2 (Some t) (fst r)
                  else lead inflate fuel data o v2 ape (fst r + size)
                else Err MFake
            end
          else
            let? frame := find_next_frame (S (length data)) data pos in
            match frame with
            | None => Ok (v2, ape, None)
            | Some (h, start) =>
                match v2 with
                | None =>
                    if negb (mo_strict o) && (0 <? start) then
                      let? (hd, content, _) := tag_res (find_id3v2 data 0 (mo_tags o) (Some (N.min start (mo_junk o)))) in
                      match hd, content with
                      | Some hd, Some c =>
                          let? (t, _) := tag_res (parse_id3v2 inflate hd (mo_frames o) c) in
                          Ok (Some t, ape, Some (h, start))
                      | _, _ => Ok (None, ape, Some (h, start))
                      end
                    else Ok (None, ape, Some (h, start))
                | Some _ => Ok (v2, ape, Some (h, start))
                end
            end
      end
  end.
(** line 30: the position of the first byte that is not zero. *)
Fixpoint skip_zeros (r : bytes) (pos : N) : option N :=
  match r with [] => None | b :: r => if b =? 0 then skip_zeros r (pos + 1) else Some pos end.
(** lines 155-188: ID3v1 tag, APE tag, end of the audio. *)
Definition tail (data : bytes) (o : mopts) (ape : option ape_tag) : res mpeg_error (option id3v1 * option ape_tag * N) :=
  let (p1, found) := find_id3v1 data in
  let? v1 := (if found && mo_tags o then let? t := tag_res (v1_parse (dropN p1 data) (mo_strict o)) in Ok (Some t) else Ok None) in
  let? (_, _, pos) := tag_res (find_lyrics3v2 data p1) in
  match seek_back pos 32 with
  | None => Err MIo
  | Some s =>
      let? (t, h, r) := tag_res (read_ape_tag data true (fo_cover (mo_frames o)) (mo_tags o) (rd_at data s)) in
      match h with
      | Some (size, _) => if fst r <? size then Err MSize else Ok (v1, t, fst r - size)
      | None => Ok (v1, ape, fst r + 24)
      end
  end.
(** lines 17-225 *)
Definition mpeg_read (inflate : bytes -> option bytes) (o : mopts) (data : bytes) : res mpeg_error mpeg_file :=
  match skip_zeros data 0 with
  | None => Err MIo
  | Some pos =>
      let? (v2, ape, first) := lead inflate (S (length data)) data o None None pos in
      let? (v1, ape, last_offset) := tail data o ape in
      if mo_props o then
        match first with
        | None => Err MNoFrame
        | Some (h, start) =>
            match read_exact 32 (dropN (start + m_data_start h) data) with
            | None => Err MIo
            | Some (x, _) =>
                let? vbr := vbr_read x in
                let? p := read_properties data h start last_offset vbr (lenN data) in
                Ok (mkMF v2 v1 ape p)
            end
        end
      else Ok (mkMF v2 v1 ape mprops_default)
  end.
