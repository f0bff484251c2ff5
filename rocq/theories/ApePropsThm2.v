(** An APE tag whose size covers the whole file (C226). *)
From Verif Require Import BaseLemmas StrLemmas F64Proof Id3v1Model Id3v1Thm Id3v2HeaderModel FrameReadModel AiffModel AiffProof3 MpegModel MpegProof3 MpegProof5 TailProof MusepackProof2 ApeModel ApeThm2 ApePropsThm.
From Verif Require Import Base Str.

(** The footer says that the tag has no items and starts with the file. *)
Definition covering (body : bytes) : bytes := body ++ $"APETAGEX" ++ le_enc 4 2000 ++ le_enc 4 (lenN body) ++ le_enc 4 0 ++ le_enc 4 0 ++ repeat 0 8.
Definition short_body (final : N) : bytes := $"MAC " ++ new_stream (mkMH 3990 2000 0 73728 final 1 16 2 44100) 0 (repeat 0 (N.to_nat 40)) [] (repeat 9 (N.to_nat 24)).
(** No byte is left for the audio: the bit rate is 0, for 10 ms (80 kbit/s without the tag) as for no audio at all. *)
Theorem C226_covered_refuted :
  (exists f, mac_file_read ex_none (ex_asked true) (covering (short_body 441)) = Ok f /\ mac_duration (mc_props f) = 10 /\ mac_audio (mc_props f) = 0) /\
  (exists f, mac_file_read ex_none (ex_asked true) (short_body 441) = Ok f /\ mac_duration (mc_props f) = 10 /\ mac_audio (mc_props f) = 80) /\
  (exists f, mac_file_read ex_none (ex_asked true) (covering (short_body 0)) = Ok f /\ mac_duration (mc_props f) = 0 /\ mac_audio (mc_props f) = 0).
Proof. repeat split; eexists; (split; [vm_compute; reflexivity|split; reflexivity]). Qed.
