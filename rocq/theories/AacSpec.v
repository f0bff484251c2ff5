(** ADTS frames as ISO/IEC 13818-7 and 14496-3 define them, independently of the code. *)
From Verif Require Export AacModel.

Record afields := mkAx { x_v2 : bool; x_crc : bool; x_profile : N; x_rate : N; x_private : bool; x_config : N; x_original : bool; x_home : bool;
  x_id_bit : bool; x_id_start : bool; x_fullness : N; x_blocks : N }.
Definition avalid (f : afields) : Prop := x_profile f < 4 /\ x_rate f < 13 /\ x_config f < 8 /\ x_fullness f < 2 ^ 11 /\ x_blocks f < 4.
Definition abit (b : bool) : N := if b then 1 else 0.
(** The 56 bits, from the high one: 12 sync, 1 version, 2 layer, 1 no checksum, 2 profile, 4 sample rate, 1 private, 3 channel configuration,
    1 original, 1 home, 1 copyright bit, 1 copyright start, 13 length, 11 fullness, 2 blocks. *)
Definition kind_word (f : afields) : N :=
  0xFFF * 2 ^ 15 + abit (x_v2 f) * 2 ^ 14 + abit (negb (x_crc f)) * 2 ^ 11 + x_profile f * 2 ^ 9 + x_rate f * 2 ^ 5 + abit (x_private f) * 2 ^ 4
  + x_config f * 2 + abit (x_original f).
Definition aword (f : afields) (len : N) : N :=
  kind_word f * 2 ^ 29 + abit (x_home f) * 2 ^ 28 + abit (x_id_bit f) * 2 ^ 27 + abit (x_id_start f) * 2 ^ 26 + len * 2 ^ 13 + x_fullness f * 2 ^ 2 + x_blocks f.
(** Hz *)
Definition arate (f : afields) : N := nth (N.to_nat (x_rate f)) [96000; 88200; 64000; 48000; 44100; 32000; 24000; 22050; 16000; 12000; 11025; 8000; 7350] 0.
Definition atype (f : afields) : object_type :=
  match x_profile f with 0 => AacMain | 1 => AacLowComplexity | 2 => AacScalableSampleRate | _ => AacLongTermPrediction end.
(** Channels of a configuration; 0 means that they are described elsewhere. *)
Definition channel_count (config : N) : N := nth (N.to_nat config) [0; 1; 2; 3; 4; 5; 6; 8] 0.
(** Speakers: 1 front left, 2 front right, 4 front centre, 8 low frequency, 0x10 and 0x20 back, 0x100 back centre, 0x200 and 0x400 sides *)
Definition speakers (config : N) : N := nth (N.to_nat config) [0; 4; 3; 7; 0x107; 0x37; 0x3F; 0x63F] 0.

(** A frame: its fields, and what follows the seven bytes (the checksum and the blocks). *)
Definition alength (x : afields * bytes) : N := 7 + lenN (snd x).
Definition aframe (x : afields * bytes) : bytes := be_enc 7 (aword (fst x) (alength x)) ++ snd x.
Definition aframe_ok (x : afields * bytes) : Prop :=
  avalid (fst x) /\ alength x < 2 ^ 13 /\ (x_crc (fst x) = true -> 2 <= lenN (snd x)) /\ bytes_ok (snd x).
Definition akind (f g : afields) : Prop := kind_word f = kind_word g.
Definition astream (l : list (afields * bytes)) : bytes := flat_map aframe l.
Definition astream_ok (l : list (afields * bytes)) : Prop :=
  match l with
  | x :: _ :: _ => Forall (fun z => aframe_ok z /\ akind (fst z) (fst x)) l
  | _ => False
  end.
(** Where a frame seems to start. *)
Definition syncs (r : bytes) (p : N) : Prop := exists b t, dropN p r = 255 :: b :: t /\ 224 <= b.
Definition silent (r : bytes) : Prop := forall p, ~ syncs r p.
(** kbit/s as the code counts them *)
Definition code_rate (x : afields * bytes) : N := alength x * arate (fst x) / 1024 * 8 / 1024.
