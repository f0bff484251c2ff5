(** How files of the formats begin, independently of the code. *)
From Verif Require Import Base Str ProbeModel.

(** ** Magic numbers. Ogg: a page with one packet of less than 255 bytes; [h] is what stands between the capture pattern and the number of segments. *)
Definition ogg_page (h packet : bytes) : bytes := $"OggS" ++ h ++ [1] ++ [lenN packet] ++ packet.
Inductive begins : ftype -> bytes -> Prop :=
| b_wav : forall size r, lenN size = 4 -> begins FWav ($"RIFF" ++ size ++ $"WAVE" ++ r)
| b_aiff : forall size r, lenN size = 4 -> begins FAiff ($"FORM" ++ size ++ $"AIFF" ++ r)
| b_aifc : forall size r, lenN size = 4 -> begins FAiff ($"FORM" ++ size ++ $"AIFC" ++ r)
| b_flac : forall r, begins FFlac ($"fLaC" ++ r)
| b_wavpack : forall r, begins FWavPack ($"wvpk" ++ r)
| b_ape : forall r, begins FApe ($"MAC" ++ r)
(** Musepack: a packet's key of two capital letters; the version and the number of frames *)
| b_mpc8 : forall k l r, 65 <= k <= 90 -> begins FMpc ($"MPCK" ++ [k; l] ++ r)
| b_mpc7 : forall v frames r, frames < 2 ^ 30 -> begins FMpc ($"MP+" ++ [v] ++ le_enc 4 frames ++ r)
| b_mp4 : forall size r, size < 2 ^ 30 -> begins FMp4 (be_enc 4 size ++ $"ftyp" ++ r)
| b_vorbis : forall h p r, lenN h = 22 -> 1 <= lenN p -> begins FVorbis (ogg_page h ([1] ++ $"vorbis" ++ p) ++ r)
| b_opus : forall h p r, lenN h = 22 -> begins FOpus (ogg_page h ($"OpusHead" ++ p) ++ r)
| b_speex : forall h p r, lenN h = 22 -> begins FSpeex (ogg_page h ($"Speex   " ++ p) ++ r)
(** MPEG: eleven bits, the version, the layer (1 to 3), no protection. ADTS: twelve bits, the version, layer 0. *)
| b_mpeg : forall v l p r, v < 4 -> 1 <= l < 4 -> p < 2 -> begins FMpeg ([0xFF; 0xE0 + v * 8 + l * 2 + p] ++ r)
| b_aac : forall v p r, v < 2 -> p < 2 -> begins FAac ([0xFF; 0xF0 + v * 8 + p] ++ r).

(** ** Frame syncs: eleven bits that are set *)
Definition pair_at (r : bytes) (i a b : N) : Prop := exists p q, r = p ++ a :: b :: q /\ lenN p = i.
Definition sync_pair (r : bytes) (i b : N) : Prop := pair_at r i 0xFF b /\ 0xE0 <= b.
(** ADTS or MPEG, by the second byte: bits 1 and 2 are the layer *)
Definition kind_of (b : N) : ftype := if (b / 16 mod 2 =? 1) && (b / 2 mod 4 =? 0) then FAac else FMpeg.

(** ** The least that is required of a file of a type *)
Inductive marked : ftype -> bytes -> Prop :=
| m_wav : forall size r, lenN size = 4 -> marked FWav ($"RIFF" ++ size ++ $"WAVE" ++ r)
| m_aiff : forall size r, lenN size = 4 -> marked FAiff ($"FORM" ++ size ++ $"AIFF" ++ r)
| m_aifc : forall size r, lenN size = 4 -> marked FAiff ($"FORM" ++ size ++ $"AIFC" ++ r)
| m_flac : forall r, marked FFlac ($"fLaC" ++ r)
| m_wavpack : forall r, marked FWavPack ($"wvpk" ++ r)
| m_ape : forall r, marked FApe ($"MAC" ++ r)
| m_mpc8 : forall r, marked FMpc ($"MPCK" ++ r)
| m_mpc7 : forall r, marked FMpc ($"MP+" ++ r)
| m_mp4 : forall size r, lenN size = 4 -> marked FMp4 (size ++ $"ftyp" ++ r)
| m_vorbis : forall h r, lenN h = 25 -> marked FVorbis ($"OggS" ++ h ++ $"vorbis" ++ r)
| m_opus : forall h r, lenN h = 24 -> marked FOpus ($"OggS" ++ h ++ $"OpusHead" ++ r)
| m_speex : forall h r, lenN h = 24 -> marked FSpeex ($"OggS" ++ h ++ $"Speex   " ++ r)
| m_sync : forall b r, 0xE0 <= b -> marked (kind_of b) (0xFF :: b :: r).

(** ** ID3v2: the size has seven bits in each byte, the footer does not count. *)
Record id3 := mkI3 { d_version : N; d_revision : N; d_flags : N; d_content : bytes }.
Definition seven (n : N) : bytes := [n / 2 ^ 21; n / 2 ^ 14 mod 2 ^ 7; n / 2 ^ 7 mod 2 ^ 7; n mod 2 ^ 7].
Definition id3_ok (d : id3) : Prop := d_version d < 256 /\ d_revision d = 0 /\ d_flags d < 256 /\ lenN (d_content d) < 2 ^ 28 /\ bytes_ok (d_content d).
Definition footer (d : id3) : bytes := if d_flags d / 16 mod 2 =? 1 then $"3DI" ++ [d_version d; d_revision d; d_flags d] ++ seven (lenN (d_content d)) else [].
Definition id3_bytes (d : id3) : bytes := $"ID3" ++ [d_version d; d_revision d; d_flags d] ++ seven (lenN (d_content d)) ++ d_content d ++ footer d.

(** No registered resolver recognises the content. *)
Definition unclaimed (g : registry) (buf : bytes) : Prop := rg_use g = false \/ Forall (fun e => rs_guess (snd e) buf = None) (rg_map g).
