(** Audio tracks of MP4 files (ISO/IEC 14496-12, -14, 14496-3) as trees of atoms, independently of the code. *)
From Verif Require Import Base Str Mp4Model Mp4Spec.

(** ** The media header: times, units per second, duration in these units *)
Record media := mkMd { h_wide : bool; h_flags : bytes; h_created : N; h_modified : N; h_scale : N; h_duration : N; h_more : bytes }.
Definition wide (h : media) : nat := if h_wide h then 8%nat else 4%nat.
Definition media_bytes (h : media) : bytes :=
  [if h_wide h then 1 else 0] ++ h_flags h ++ be_enc (wide h) (h_created h) ++ be_enc (wide h) (h_modified h) ++ be_enc 4 (h_scale h) ++ be_enc (wide h) (h_duration h) ++ h_more h.
Definition media_ok (h : media) : Prop :=
  lenN (h_flags h) = 3 /\ h_created h < 256 ^ N.of_nat (wide h) /\ h_modified h < 256 ^ N.of_nat (wide h) /\ h_scale h < 2 ^ 32 /\ h_duration h < 256 ^ N.of_nat (wide h).
(** A handler of sound *)
Definition sounds (b : box) : bool :=
  match b with Leaf _ id c => list_eqb id ($"hdlr") && (12 <=? lenN c) && list_eqb (takeN 4 (dropN 8 c)) ($"soun") | Node _ _ _ => false end.
(** ** Time to sample: runs of samples of one duration *)
Definition stts_bytes (l : list (N * N)) : bytes := [0; 0; 0; 0] ++ be_enc 4 (lenN l) ++ flat_map (fun e => be_enc 4 (fst e) ++ be_enc 4 (snd e)) l.
Definition stts_ok (l : list (N * N)) : Prop := lenN l < 2 ^ 32 /\ Forall (fun e => fst e < 2 ^ 32 /\ snd e < 2 ^ 32) l.

(** ** A file with an audio track. The information [minf] is the last part of its media. *)
Record afile := mkAf { f_pre : list box; f_k1 : list box; f_t1 : list box; f_a1 : list box; f_media : media; f_a2 : list box;
  f_i1 : list box; f_s1 : list box; f_stsd : bytes; f_s2 : list box; f_stts : list (N * N); f_s3 : list box; f_i2 : list box; f_t2 : list box; f_k2 : list box; f_post : list box }.
Definition f_handlers (f : afile) : list box := f_a1 f ++ [leaf ($"mdhd") (media_bytes (f_media f))] ++ f_a2 f.
Definition f_stbl (f : afile) : list box := f_s1 f ++ [leaf ($"stsd") (f_stsd f)] ++ f_s2 f ++ [leaf ($"stts") (stts_bytes (f_stts f))] ++ f_s3 f.
Definition f_minf (f : afile) : box := node ($"minf") (f_i1 f ++ [node ($"stbl") (f_stbl f)] ++ f_i2 f).
Definition f_mdia (f : afile) : box := node ($"mdia") (f_handlers f ++ [f_minf f]).
Definition f_trak (f : afile) : box := node ($"trak") (f_t1 f ++ [f_mdia f] ++ f_t2 f).
Definition f_top (f : afile) : list box := f_pre f ++ [node ($"moov") (f_k1 f ++ [f_trak f] ++ f_k2 f)] ++ f_post f.
(** A track whose media do not sound *)
Definition silent (mk : list box) : Prop :=
  exists a x, mk = a ++ x /\ none_named ($"minf") a /\ existsb sounds a = false /\ (x = [] \/ exists i, x = [i] /\ box_name i = $"minf").
Definition silent_trak (b : box) : Prop := forall s t1 s' mk t2, b = Node s ($"trak") (t1 ++ Node s' ($"mdia") mk :: t2) -> none_named ($"mdia") t1 -> silent mk.
(** Nothing is said about what follows the media in the track and about what follows the track: the file is to be read without error. *)
Definition afile_ok (o : mopts) (f : afile) : Prop :=
  boxes_ok (f_top f) /\ ftyp_first (f_top f) /\ none_named ($"moov") (f_pre f) /\ (mo_tags o = false \/ none_named ($"udta") (f_k1 f)) /\
  Forall quiet_trak (f_k1 f) /\ Forall silent_trak (f_k1 f) /\ none_named ($"mdia") (f_t1 f) /\
  none_named ($"minf") (f_handlers f) /\ existsb sounds (f_handlers f) = true /\ none_named ($"mdhd") (f_a2 f) /\ media_ok (f_media f) /\
  none_named ($"stbl") (f_i1 f) /\ none_named ($"stsd") (f_s1 f ++ f_s2 f ++ f_s3 f) /\ none_named ($"stts") (f_s1 f ++ f_s2 f ++ f_s3 f) /\ stts_ok (f_stts f).
(** The size of the first media data; the milliseconds, rounded *)
Fixpoint mdat_size (l : list box) : option N :=
  match l with
  | [] => None
  | Leaf _ id c :: l => if list_eqb id ($"mdat") then Some (lenN c) else mdat_size l
  | Node _ _ _ :: l => mdat_size l
  end.

(** ** Sample entries: reserved, reference; a version, channels, sample size, sample rate in 16.16 *)
Record entry := mkEn { n_ref : bytes; n_vendor : bytes; n_channels : N; n_sizes : bytes; n_rate : N }.
Definition entry_ok (e : entry) : Prop := lenN (n_ref e) = 8 /\ lenN (n_vendor e) = 6 /\ n_channels e < 2 ^ 16 /\ lenN (n_sizes e) = 6 /\ n_rate e < 2 ^ 32.
Definition entry_bytes (e : entry) : bytes := n_ref e ++ be_enc 2 0 ++ n_vendor e ++ be_enc 2 (n_channels e) ++ n_sizes e ++ be_enc 4 (n_rate e).
Definition stsd_of (count : N) (entries : bytes) : bytes := [0; 0; 0; 0] ++ be_enc 4 count ++ entries.

(** ** Elementary streams. A descriptor: tag, size in up to four bytes (seven bits each), content *)
Definition desc_size (l : bytes) : Prop := exists a b, l = a ++ [b] /\ (lenN a <= 3) /\ Forall (fun x => 0x80 <= x < 0x100) a /\ b < 0x80.
Record stream := mkEs { x_size3 : bytes; x_id : bytes; x_size4 : bytes; x_codec : N; x_buffer : bytes; x_average : N; x_size5 : bytes; x_more : bytes }.
Definition stream_ok (x : stream) : Prop :=
  desc_size (x_size3 x) /\ lenN (x_id x) = 3 /\ desc_size (x_size4 x) /\ x_codec x < 256 /\ lenN (x_buffer x) = 8 /\ x_average x < 2 ^ 32 /\ desc_size (x_size5 x).
(** with the decoder's configuration [config] *)
Definition esds_bytes (x : stream) (config : bytes) : bytes :=
  [0; 0; 0; 0] ++ [3] ++ x_size3 x ++ x_id x ++ [4] ++ x_size4 x ++ [x_codec x] ++ x_buffer x ++ be_enc 4 (x_average x) ++ [5] ++ x_size5 x ++ config ++ x_more x.
(** ** The configuration as bits: object type (5, or 31 and 6 more), index of the rate (4; if 15, 24 of the rate), channels (4).
    [v] of [k] bits before the bits [r]. *)
Definition put (k v : N) (r : N * N) : N * N := (k + fst r, v * 2 ^ fst r + snd r).
Record aconfig := mkAc { c_type : N; c_index : N; c_rate : N; c_conf : N }.
Definition aconfig_ok (c : aconfig) : Prop := 1 <= c_type c < 96 /\ c_type c <> 31 /\ c_index c < 16 /\ c_rate c < 2 ^ 24 /\ c_conf c < 16.
Definition config_bits (c : aconfig) (tail : N * N) : N * N :=
  let chan := put 4 (c_conf c) tail in
  let freq := put 4 (c_index c) (if c_index c =? 15 then put 24 (c_rate c) chan else chan) in
  if c_type c <? 32 then put 5 (c_type c) freq else put 5 31 (put 6 (c_type c - 32) freq).
(** The bytes: [tail] fills the last one. *)
Definition config_bytes (c : aconfig) (tail : N * N) (l : bytes) : Prop :=
  let (k, v) := config_bits c tail in k = 8 * lenN l /\ snd tail < 2 ^ fst tail /\ l = be_enc (length l) v.
(** Hz, by the index *)
Definition RATES : list N := [96000; 88200; 64000; 48000; 44100; 32000; 24000; 22050; 16000; 12000; 11025; 8000; 7350].
Definition rate_of (c : aconfig) : N := if c_index c =? 15 then c_rate c else nth (N.to_nat (c_index c)) RATES 0.
(** Channels by configuration, as far as it says so *)
Definition channels_of (conf : N) : option N :=
  if (1 <=? conf) && (conf <=? 6) then Some conf else if (conf =? 7) || (conf =? 12) || (conf =? 14) then Some 8 else if conf =? 11 then Some 7 else if conf =? 13 then Some 24 else None.

(** ** ALAC: version and flags, then the configuration of 24 bytes *)
Record alac := mkAl { l_version : bytes; l_frame : bytes; l_depth : N; l_rice : bytes; l_channels : N; l_run : bytes; l_average : N; l_rate : N }.
Definition alac_ok (a : alac) : Prop := lenN (l_version a) = 4 /\ lenN (l_frame a) = 5 /\ l_depth a < 256 /\ lenN (l_rice a) = 3 /\ l_channels a < 256 /\ lenN (l_run a) = 6 /\ l_average a < 2 ^ 32 /\ l_rate a < 2 ^ 32.
Definition alac_bytes (a : alac) : bytes := l_version a ++ l_frame a ++ [l_depth a] ++ l_rice a ++ [l_channels a] ++ l_run a ++ be_enc 4 (l_average a) ++ be_enc 4 (l_rate a).
(** ** FLAC: version and flags, then the block with the stream information *)
Record info := mkIn { i_blocks : bytes; i_rate : N; i_channels : N; i_depth : N; i_total : N; i_md5 : bytes }.
Definition info_ok (i : info) : Prop := lenN (i_blocks i) = 10 /\ i_rate i < 2 ^ 20 /\ 1 <= i_channels i <= 8 /\ 1 <= i_depth i <= 32 /\ i_total i < 2 ^ 36 /\ lenN (i_md5 i) = 16.
Definition info_bytes (i : info) : bytes :=
  i_blocks i ++ be_enc 4 (i_rate i * 2 ^ 12 + (i_channels i - 1) * 2 ^ 9 + (i_depth i - 1) * 2 ^ 4 + i_total i / 2 ^ 32) ++ be_enc 4 (i_total i mod 2 ^ 32) ++ i_md5 i.
Definition dfla_bytes (i : info) (last : bool) (more : bytes) : bytes := [0; 0; 0; 0] ++ [if last then 128 else 0] ++ be_enc 3 34 ++ info_bytes i ++ more.
