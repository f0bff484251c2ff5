(** WavPack blocks as the format's own description (WavPack 4 and 5 file formats) has them, independently of the code. *)
From Verif Require Export WavPackModel.
From Verif Require Import Base Str.

Definition bitv (b : bool) : N := if b then 1 else 0.
(** The flags, from the low bit: 2 bytes per sample (minus one), 1 mono, 1 hybrid, 7 others, 1 first and 1 last block of the channels, 5 shift,
    5 magnitude, 4 sample rate, 4 others, 1 DSD. *)
Record wflags := mkFl { g_bytes : N; g_mono : bool; g_hybrid : bool; g_mid : N; g_first : bool; g_last : bool; g_shift : N; g_mag : N; g_rate : N; g_high : N; g_dsd : bool }.
Definition wflags_ok (g : wflags) : Prop := 1 <= g_bytes g <= 4 /\ g_mid g < 2 ^ 7 /\ g_shift g < 2 ^ 5 /\ g_mag g < 2 ^ 5 /\ g_rate g < 16 /\ g_high g < 16.
Definition flag_word (g : wflags) : N :=
  (g_bytes g - 1) + bitv (g_mono g) * 2 ^ 2 + bitv (g_hybrid g) * 2 ^ 3 + g_mid g * 2 ^ 4 + bitv (g_first g) * 2 ^ 11 + bitv (g_last g) * 2 ^ 12
  + g_shift g * 2 ^ 13 + g_mag g * 2 ^ 18 + g_rate g * 2 ^ 23 + g_high g * 2 ^ 27 + bitv (g_dsd g) * 2 ^ 31.
(** Hz, for the indices below 15 *)
Definition std_rate (i : N) : N := nth (N.to_nat i) [6000; 8000; 9600; 11025; 12000; 16000; 22050; 24000; 32000; 44100; 48000; 64000; 88200; 96000; 192000] 0.

(** A sub-block: its kind and content. The size is in words of two bytes; bit 6 of the kind says that the last byte is padding, bit 7
    that the size has three bytes. *)
Definition sub := (N * bytes)%type.
Definition sub_ok (s : sub) : Prop := fst s < 64 /\ lenN (snd s) < 2 ^ 24 /\ bytes_ok (snd s).
Definition words (d : bytes) : N := (lenN d + 1) / 2.
Definition odd_len (d : bytes) : bool := lenN d mod 2 =? 1.
Definition sub_bytes (s : sub) : bytes :=
  let '(id, d) := s in
  let w := words d in
  let head := if w <? 256 then [id + (if odd_len d then 64 else 0); w] else [id + (if odd_len d then 64 else 0) + 128; w mod 256; w / 256 mod 256; w / 65536] in
  head ++ d ++ (if odd_len d then [0] else []).
(** The kinds that matter here: 13 channels, 14 DSD audio, 39 a sample rate that is not in the table. *)
Definition other_sub (s : sub) : Prop := sub_ok s /\ fst s <> 13 /\ fst s <> 14 /\ fst s <> 39.

(** A block. The number of samples of the file has 40 bits: a byte [h] and a word [l] below 2^32 - 1 stand for [h * (2^32 - 1) + l]; the
    word 2^32 - 1 says that it is not known. *)
Record wblock := mkWB { k_version : N; k_total : option N; k_index : N; k_samples : N; k_flags : wflags; k_crc : N; k_subs : list sub }.
Definition M32 : N := 2 ^ 32 - 1.
Definition k_body (k : wblock) : bytes := flat_map sub_bytes (k_subs k).
Definition block_bytes (k : wblock) : bytes :=
  $"wvpk" ++ le_enc 4 (24 + lenN (k_body k)) ++ le_enc 2 (k_version k)
  ++ [k_index k / 2 ^ 32; match k_total k with Some n => n / M32 | None => 0 end]
  ++ le_enc 4 (match k_total k with Some n => n mod M32 | None => M32 end)
  ++ le_enc 4 (k_index k mod 2 ^ 32) ++ le_enc 4 (k_samples k) ++ le_enc 4 (flag_word (k_flags k)) ++ le_enc 4 (k_crc k) ++ k_body k.
Definition block_ok (k : wblock) : Prop :=
  0x402 <= k_version k <= 0x410 /\ (match k_total k with Some n => n < 256 * M32 | None => True end) /\ k_index k < 2 ^ 40 /\ k_samples k < 2 ^ 32 /\ wflags_ok (k_flags k)
  /\ k_crc k < 2 ^ 32 /\ Forall sub_ok (k_subs k) /\ 24 + lenN (k_body k) <= 2 ^ 20.

(** The sample rate of a block: from the table or the sub-block 39, times a power of two for DSD. *)
Inductive custom_rate : option N -> option N -> list sub -> Prop :=
| rate_only : forall a r b, Forall other_sub a -> Forall other_sub b -> r < 2 ^ 24 -> custom_rate (Some r) None (a ++ (39, le_enc 3 r) :: b)
| dsd_only : forall a m d b, Forall other_sub a -> Forall other_sub b -> sub_ok (14, m :: d) -> d <> [] -> custom_rate None (Some m) (a ++ (14, m :: d) :: b)
| rate_dsd : forall a r b m d c, Forall other_sub a -> Forall other_sub b -> Forall other_sub c -> r < 2 ^ 24 -> sub_ok (14, m :: d) -> d <> [] ->
    custom_rate (Some r) (Some m) (a ++ (39, le_enc 3 r) :: b ++ (14, m :: d) :: c).
Inductive rate_is (k : wblock) : N -> Prop :=
| std : g_rate (k_flags k) < 15 -> g_dsd (k_flags k) = false -> rate_is k (std_rate (g_rate (k_flags k)))
| std_dsd : forall m, g_rate (k_flags k) < 15 -> g_dsd (k_flags k) = true -> custom_rate None (Some m) (k_subs k) -> m <= 30 -> rate_is k (std_rate (g_rate (k_flags k)) * 2 ^ m)
| own : forall r, g_rate (k_flags k) = 15 -> g_dsd (k_flags k) = false -> custom_rate (Some r) None (k_subs k) -> r <> 0 -> rate_is k r
| own_dsd : forall r m, g_rate (k_flags k) = 15 -> g_dsd (k_flags k) = true -> custom_rate (Some r) (Some m) (k_subs k) -> r <> 0 -> m <= 30 -> rate_is k (r * 2 ^ m).
(** Channels of the blocks of one piece of audio *)
Definition block_channels (k : wblock) : N := if g_mono (k_flags k) then 1 else 2.
Definition total_channels (l : list wblock) : N := fold_right (fun k n => block_channels k + n) 0 l.
(** What the channel sub-block says: the number of channels and the speakers, by its size *)
Definition channel_info (d : bytes) : option (N * N) :=
  match d with
  | [c; m] => Some (c, m)
  | [c; m0; m1] => Some (c, m0 + 2 ^ 8 * m1)
  | [c; m0; m1; m2] => Some (c, m0 + 2 ^ 8 * m1 + 2 ^ 16 * m2)
  | [c; m0; m1; m2; m3] => Some (c, m0 + 2 ^ 8 * m1 + 2 ^ 16 * m2 + 2 ^ 24 * m3)
  | [c; s; h; m0; m1; m2] => Some (c + 2 ^ 8 * (h mod 16) + 1, m0 + 2 ^ 8 * m1 + 2 ^ 16 * m2)
  | [c; s; h; m0; m1; m2; m3] => Some (c + 2 ^ 8 * (h mod 16) + 1, m0 + 2 ^ 8 * m1 + 2 ^ 16 * m2 + 2 ^ 24 * m3)
  | _ => None
  end.
