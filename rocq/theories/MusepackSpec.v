(** Musepack streams as the format's own descriptions (stream versions 4 to 8) have them, independently of the code. *)
From Verif Require Export MusepackModel.
From Verif Require Import Base Str.

Definition bit1 (b : bool) : N := if b then 1 else 0.
(** Hz, for the indices below 4 *)
Definition mpc_rate (i : N) : N := nth (N.to_nat i) [44100; 48000; 37800; 32000] 0.

(** ** Version 8 *)
(** A number in [n] bytes, seven bits in each, the upper ones first; the eighth bit says that more follow. *)
Fixpoint sized (n : nat) (v : N) : bytes :=
  match n with
  | O => []
  | Datatypes.S O => [v mod 128]
  | Datatypes.S m => (128 + v / 128 ^ N.of_nat m mod 128) :: sized m v
  end.
Definition fits (n : nat) (v : N) : Prop := (1 <= n <= 9)%nat /\ v < 128 ^ N.of_nat n.
Record head8 := mkH8 { e_crc : N; e_version : N; e_samples : N; e_samples_n : nat; e_silence : N; e_silence_n : nat; e_rate : N; e_bands : N; e_channels : N; e_ms : bool; e_block : N }.
Definition head8_ok (h : head8) : Prop := e_crc h < 2 ^ 32 /\ e_version h < 2 ^ 8 /\ fits (e_samples_n h) (e_samples h) /\ fits (e_silence_n h) (e_silence h) /\ e_rate h < 4 /\
  1 <= e_bands h <= 32 /\ 1 <= e_channels h <= 16 /\ e_block h < 8.
Definition head8_bytes (h : head8) : bytes :=
  be_enc 4 (e_crc h) ++ [e_version h] ++ sized (e_samples_n h) (e_samples h) ++ sized (e_silence_n h) (e_silence h)
  ++ [e_rate h * 32 + (e_bands h - 1); (e_channels h - 1) * 16 + bit1 (e_ms h) * 8 + e_block h].
Record gain8 := mkG8 { y_version : N; y_title_gain : N; y_title_peak : N; y_album_gain : N; y_album_peak : N }.
Definition gain8_ok (g : gain8) : Prop := y_version g < 2 ^ 8 /\ y_title_gain g < 2 ^ 16 /\ y_title_peak g < 2 ^ 16 /\ y_album_gain g < 2 ^ 16 /\ y_album_peak g < 2 ^ 16.
Definition gain8_bytes (g : gain8) : bytes := [y_version g] ++ be_enc 2 (y_title_gain g) ++ be_enc 2 (y_title_peak g) ++ be_enc 2 (y_album_gain g) ++ be_enc 2 (y_album_peak g).
Record enc8 := mkE8 { z_profile : N; z_pns : bool; z_major : N; z_minor : N; z_build : N }.
Definition enc8_ok (e : enc8) : Prop := z_profile e < 2 ^ 7 /\ z_major e < 2 ^ 8 /\ z_minor e < 2 ^ 8 /\ z_build e < 2 ^ 8.
Definition enc8_bytes (e : enc8) : bytes := [z_profile e * 2 + bit1 (z_pns e); z_major e; z_minor e; z_build e].
(** A packet: a key of two capital letters, its size with key and size themselves, the content; anything may follow the fields. *)
Inductive packet := KHead (h : head8) (more : bytes) | KGain (g : gain8) (more : bytes) | KEnc (e : enc8) (more : bytes) | KOther (key content : bytes).
Definition key_of (p : packet) : bytes := match p with KHead _ _ => $"SH" | KGain _ _ => $"RG" | KEnc _ _ => $"EI" | KOther k _ => k end.
Definition content_of (p : packet) : bytes := match p with KHead h m => head8_bytes h ++ m | KGain g m => gain8_bytes g ++ m | KEnc e m => enc8_bytes e ++ m | KOther _ c => c end.
Definition capital (c : N) : Prop := 65 <= c <= 90.
Definition packet_bytes (np : nat * packet) : bytes := let '(n, p) := np in key_of p ++ sized n (2 + N.of_nat n + lenN (content_of p)) ++ content_of p.
Definition packet_ok (np : nat * packet) : Prop :=
  let '(n, p) := np in fits n (2 + N.of_nat n + lenN (content_of p)) /\
  match p with
  | KHead h _ => head8_ok h
  | KGain g _ => gain8_ok g
  | KEnc e _ => enc8_ok e
  | KOther k _ => Forall capital k /\ lenN k = 2 /\ k <> $"SH" /\ k <> $"RG" /\ k <> $"EI" /\ k <> $"SE"
  end.
(** The last packet of each kind *)
Fixpoint pick {A} (f : packet -> option A) (l : list (nat * packet)) : option A :=
  match l with [] => None | (_, p) :: l => match pick f l with Some x => Some x | None => f p end end.
Definition the_head := pick (fun p => match p with KHead h _ => Some h | _ => None end).
Definition the_gain := pick (fun p => match p with KGain g _ => Some g | _ => None end).
Definition the_enc := pick (fun p => match p with KEnc e _ => Some e | _ => None end).
Definition contents_len (l : list (nat * packet)) : N := fold_right (fun np n => lenN (content_of (snd np)) + n) 0 l.
(** The stream: packets up to the end packet. *)
Definition sv8_bytes (l : list (nat * packet)) (n : nat) (last rest : bytes) : bytes := $"MPCK" ++ flat_map packet_bytes l ++ packet_bytes (n, KOther ($"SE") last) ++ rest.
Definition sv8_ok (l : list (nat * packet)) (n : nat) (last : bytes) : Prop := Forall packet_ok l /\ fits n (2 + N.of_nat n + lenN last).

(** ** Version 7. Gains are two's complement, in hundredths of decibels. *)
Record head7 := mkH7 { d_minor : N; d_frames : N; d_is : bool; d_ms : bool; d_band : N; d_profile : N; d_link : N; d_rate : N; d_level : N; d_title_peak : N; d_title_gain : N; d_album_peak : N; d_album_gain : N;
  d_gapless : bool; d_last : N; d_fast : bool; d_unused : N; d_encoder : N; d_low : N }.
Definition head7_ok (h : head7) : Prop := d_minor h < 16 /\ d_frames h < 2 ^ 32 /\ d_band h < 64 /\ d_profile h < 16 /\ d_link h < 4 /\ d_rate h < 4 /\ d_level h < 2 ^ 16 /\ d_title_peak h < 2 ^ 16 /\ d_title_gain h < 2 ^ 16 /\
  d_album_peak h < 2 ^ 16 /\ d_album_gain h < 2 ^ 16 /\ d_last h <= 1152 /\ d_unused h < 2 ^ 19 /\ d_encoder h < 256 /\ d_low h < 2 ^ 24.
Definition word2 (h : head7) : N := bit1 (d_is h) * 2 ^ 31 + bit1 (d_ms h) * 2 ^ 30 + d_band h * 2 ^ 24 + d_profile h * 2 ^ 20 + d_link h * 2 ^ 18 + d_rate h * 2 ^ 16 + d_level h.
Definition word5 (h : head7) : N := bit1 (d_gapless h) * 2 ^ 31 + d_last h * 2 ^ 20 + bit1 (d_fast h) * 2 ^ 19 + d_unused h.
Definition head7_bytes (h : head7) : bytes :=
  $"MP+" ++ [d_minor h * 16 + 7] ++ le_enc 4 (d_frames h) ++ le_enc 4 (word2 h) ++ le_enc 2 (d_title_peak h) ++ le_enc 2 (d_title_gain h) ++ le_enc 2 (d_album_peak h) ++ le_enc 2 (d_album_gain h)
  ++ le_enc 4 (word5 h) ++ le_enc 4 (d_encoder h * 2 ^ 24 + d_low h).
(** Samples that are heard: the last frame is in part, or else the delay of the decoder is lost. *)
Definition samples7 (h : head7) : N := if d_gapless h then d_frames h * 1152 - (1152 - d_last h) else d_frames h * 1152 - 481.
Definition profiles : list mpc_profile :=
  [PNone; PUnstable; PUnused; PUnused; PUnused; PBelowTelephone0; PBelowTelephone1; PTelephone; PThumb; PRadio; PStandard; PXtreme; PInsane; PBrainDead; PAboveBrainDead9; PAboveBrainDead10].
Definition links : list mpc_link := [LVeryLow; LLoudEnd; LLoudStart; LLoudBoth].

(** ** Versions 4 to 6. A version 4 has 16 bits for the number of frames, the upper ones; before version 6 the last frame is not valid. *)
Record head6 := mkH6 { b_rate : N; b_is : bool; b_ms : bool; b_version : N; b_band : N; b_block : N; b_frames : N; b_low : N; b_rest : bytes }.
Definition head6_ok (h : head6) : Prop := b_rate h < 512 /\ 4 <= b_version h <= 6 /\ b_band h < 32 /\ b_block h < 64 /\ (if b_version h =? 4 then b_frames h < 2 ^ 16 /\ b_low h < 2 ^ 16 else b_frames h < 2 ^ 32) /\ lenN (b_rest h) = 24.
Definition head6_bytes (h : head6) : bytes :=
  le_enc 4 (b_rate h * 2 ^ 23 + bit1 (b_is h) * 2 ^ 22 + bit1 (b_ms h) * 2 ^ 21 + b_version h * 2 ^ 11 + b_band h * 2 ^ 6 + b_block h)
  ++ le_enc 4 (if b_version h =? 4 then b_frames h * 2 ^ 16 + b_low h else b_frames h) ++ b_rest h.
Definition frames6 (h : head6) : N := if b_version h =? 6 then b_frames h else b_frames h - 1.
Definition samples6 (h : head6) : N := frames6 h * 1152 - 481.
(** What a conforming file has *)
Definition plain6 (h : head6) : Prop := b_rate h = 0 /\ b_is h = false /\ b_block h = 1.
