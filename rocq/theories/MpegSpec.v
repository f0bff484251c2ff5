(** MPEG audio frames as ISO/IEC 11172-3 and 13818-3 define them, independently of the code. *)
From Verif Require Export Base Str MpegModel.

Record fields := mkFld { fl_version : mpeg_version; fl_layer : layer; fl_unprotected : bool; fl_bitrate : N; fl_rate : N; fl_padded : bool;
  fl_private : bool; fl_mode : channel_mode; fl_ext : N; fl_copyright : bool; fl_original : bool; fl_emphasis : option emphasis }.
(** kbit/s, for the indices 1 to 14 *)
Definition bitrate_of (f : fields) : N :=
  nth (N.to_nat (fl_bitrate f))
  match fl_version f, fl_layer f with
  | MV1, Layer1 => map (N.mul 32) [0; 1; 2; 3; 4; 5; 6; 7; 8; 9; 10; 11; 12; 13; 14]
  | MV1, Layer2 => [0; 32; 48; 56; 64; 80; 96; 112; 128; 160; 192; 224; 256; 320; 384]
  | MV1, Layer3 => [0; 32; 40; 48; 56; 64; 80; 96; 112; 128; 160; 192; 224; 256; 320]
  | _, Layer1 => [0; 32; 48; 56; 64; 80; 96; 112; 128; 144; 160; 176; 192; 224; 256]
  | _, _ => [0; 8; 16; 24; 32; 40; 48; 56; 64; 80; 96; 112; 128; 144; 160]
  end 0.
(** Hz: 2.5 halves the rates of version 2, which halves those of version 1 *)
Definition rate_of (f : fields) : N :=
  nth (N.to_nat (fl_rate f)) [44100; 48000; 32000] 0 / match fl_version f with MV1 => 1 | MV2 => 2 | MV2_5 => 4 end.
Definition samples_of (f : fields) : N :=
  match fl_layer f, fl_version f with Layer1, _ => 384 | Layer2, _ => 1152 | Layer3, MV1 => 1152 | Layer3, _ => 576 end.
Definition bit (b : bool) : N := if b then 1 else 0.
(** Bytes in a frame. Layer I counts in slots of four bytes, the others in slots of one. *)
Definition length_of (f : fields) : N :=
  match fl_layer f with
  | Layer1 => 4 * (12 * 1000 * bitrate_of f / rate_of f + bit (fl_padded f))
  | _ => samples_of f / 8 * 1000 * bitrate_of f / rate_of f + bit (fl_padded f)
  end.
(** Where the Xing header is: after the 4 bytes of the header and the side information of layer III. *)
Definition xing_offset (f : fields) : N :=
  match fl_version f, fl_mode f with MV1, SingleChannel => 21 | MV1, _ => 36 | _, SingleChannel => 13 | _, _ => 21 end.
Definition valid (f : fields) : Prop := 1 <= fl_bitrate f <= 14 /\ fl_rate f <= 2 /\ fl_ext f <= 3.
(** The four bytes, from the high bit: 11 sync, 2 version, 2 layer, 1 protection, 4 bit rate, 2 sample rate, 1 padding, 1 private, 2 mode,
    2 mode extension, 1 copyright, 1 original, 2 emphasis. *)
Definition word (f : fields) : N :=
  0x7FF * 2 ^ 21
  + match fl_version f with MV2_5 => 0 | MV2 => 2 | MV1 => 3 end * 2 ^ 19
  + match fl_layer f with Layer3 => 1 | Layer2 => 2 | Layer1 => 3 end * 2 ^ 17
  + bit (fl_unprotected f) * 2 ^ 16 + fl_bitrate f * 2 ^ 12 + fl_rate f * 2 ^ 10 + bit (fl_padded f) * 2 ^ 9 + bit (fl_private f) * 2 ^ 8
  + match fl_mode f with Stereo => 0 | JointStereo => 1 | DualChannel => 2 | SingleChannel => 3 end * 2 ^ 6
  + fl_ext f * 2 ^ 4 + bit (fl_copyright f) * 2 ^ 3 + bit (fl_original f) * 2 ^ 2
  + match fl_emphasis f with None => 0 | Some MS5015 => 1 | Some EReserved => 2 | Some CCIT_J17 => 3 end.

(** A stream of frames: fields and what follows the header. *)
Definition frame_bytes (x : fields * bytes) : bytes := be_enc 4 (word (fst x)) ++ snd x.
Definition frame_ok (x : fields * bytes) : Prop := valid (fst x) /\ 4 + lenN (snd x) = length_of (fst x).
Definition same_kind (f g : fields) : Prop := fl_version f = fl_version g /\ fl_layer f = fl_layer g /\ fl_rate f = fl_rate g.
Definition audio_of (l : list (fields * bytes)) : bytes := flat_map frame_bytes l.
(** Two frames or more, of one kind. *)
Definition stream_ok (l : list (fields * bytes)) : Prop :=
  match l with
  | x :: y :: _ => Forall (fun z => frame_ok z /\ same_kind (fst z) (fst x)) l
  | _ => False
  end.
(** The frames whose length the code gets right, see C165. *)
Definition regular (f : fields) : Prop := fl_layer f <> Layer1 \/ fl_rate f <> 0.
