(** Model of properties/file_properties.rs and of the conversions of the properties of all formats into FileProperties (From impls):
    iff/wav/properties.rs 45-67, iff/aiff/properties.rs 104-116, ogg/speex/properties.rs 28-40, ogg/vorbis/properties.rs 27-39, ogg/opus/properties.rs 27-43,
    flac/properties.rs 21-33, mp4/properties.rs 197-209, ape/properties.rs 23-35. Those of AAC, MPEG, Musepack and WavPack are in the models of these formats.
    Durations are in milliseconds; the values of the input are those of the models of the readers. *)
From Verif Require Import Base IffModel AiffModel OggFileModel FlacModel Mp4PropsModel ApePropsModel AacModel MusepackModel WavPackModel.
From Verif Require Import MpegModel.

Inductive any_props :=
| XAac (p : aac_props) | XMac (p : mac_props) | XFlac (p : flac_props) | XMpeg (p : mprops) | XMp4 (p : mp4_props) | XMpc (p : mpc_props)
| XOpus (p : opus_props) | XVorbis (p : vorbis_props) | XSpeex (p : speex_props) | XWav (p : wav_props) | XAiff (p : aiff_props) | XWv (p : wv_props).
Definition u8 (n : N) : N := n mod 256.
Definition general (x : any_props) : file_props :=
  match x with
  | XAac p => aac_file_props p
  | XMpeg p => to_file_props p
  | XMpc p => mpc_file_props p
  | XWv p => wv_file_props p
  | XMac p => mkFileP (mac_duration p) (Some (mac_overall p)) (Some (mac_audio p)) (Some (mac_rate p)) (Some (mac_depth p)) (Some (mac_channels p)) None
  | XFlac p => mkFileP (FlacModel.fp_duration p) (Some (FlacModel.fp_overall p)) (Some (FlacModel.fp_audio p)) (Some (FlacModel.fp_rate p)) (Some (FlacModel.fp_depth p)) (Some (FlacModel.fp_channels p)) None
  | XMp4 p => mkFileP (q_duration p) (q_overall p) (q_audio p) (q_rate p) (q_depth p) (q_channels p) None
  | XOpus p => mkFileP (op_duration p) (Some (op_overall p)) (Some (op_audio p)) (Some (op_rate p)) None (Some (op_channels p)) (if op_mask p =? 0 then None else Some (op_mask p))
  | XVorbis p => mkFileP (vp_duration p) (Some (vp_overall p)) (Some (vp_audio p)) (Some (vp_rate p)) None (Some (vp_channels p)) None
  | XSpeex p => mkFileP (sp_duration p) (Some (sp_overall p)) (Some (sp_audio p)) (Some (sp_rate p)) None (Some (sp_channels p)) None
  | XWav p => mkFileP (IffModel.wp_duration p) (Some (IffModel.wp_overall p)) (Some (IffModel.wp_audio p)) (Some (IffModel.wp_rate p)) (Some (IffModel.wp_depth p)) (Some (IffModel.wp_channels p)) (IffModel.wp_mask p)
  | XAiff p => mkFileP (AiffModel.ap_duration p) (Some (AiffModel.ap_overall p)) (Some (AiffModel.ap_audio p)) (Some (AiffModel.ap_rate p)) (Some (u8 (ap_size p))) (Some (u8 (AiffModel.ap_channels p))) None
  end.
(** file_properties.rs 17-29 and 92-108 *)
Definition file_props_default : file_props := mkFileP 0 None None None None None None.
Definition none_or_0 (o : option N) : bool := match o with None => true | Some n => n =? 0 end.
Definition props_empty (p : file_props) : bool :=
  (MpegModel.fp_duration p =? 0) && none_or_0 (MpegModel.fp_overall p) && none_or_0 (MpegModel.fp_audio p) && none_or_0 (MpegModel.fp_rate p) && none_or_0 (MpegModel.fp_depth p) && none_or_0 (MpegModel.fp_channels p)
    && match fp_mask p with None => true | Some _ => false end.
