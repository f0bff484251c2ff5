(** The properties of a file that do not depend on its format (C235). *)
From Verif Require Import BaseLemmas IffModel AiffModel AiffProof AiffProof3 AiffThm OggFileModel FlacModel Mp4PropsModel ApePropsModel AacModel MusepackModel WavPackModel.
From Verif Require Import MpegModel FilePropsModel.

(** What the format says, and how it is called there. *)
Definition own_duration (x : any_props) : N :=
  match x with
  | XAac p => AacModel.ap_duration p | XMac p => mac_duration p | XFlac p => FlacModel.fp_duration p | XMpeg p => p_duration p | XMp4 p => q_duration p
  | XMpc (P8 p) => s8_duration p | XMpc (P7 p) => s7_duration p | XMpc (P6 p) => s6_duration p | XOpus p => op_duration p | XVorbis p => vp_duration p | XSpeex p => sp_duration p
  | XWav p => IffModel.wp_duration p | XAiff p => AiffModel.ap_duration p | XWv p => WavPackModel.wp_duration p
  end.
(** Overall and audio bit rate; Musepack has an average only. *)
Definition own_bitrates (x : any_props) : option N * option N :=
  match x with
  | XAac p => (Some (AacModel.ap_overall p), Some (AacModel.ap_audio p)) | XMac p => (Some (mac_overall p), Some (mac_audio p)) | XFlac p => (Some (FlacModel.fp_overall p), Some (FlacModel.fp_audio p))
  | XMpeg p => (Some (p_overall p), Some (p_audio p)) | XMp4 p => (q_overall p, q_audio p)
  | XMpc (P8 p) => (Some (s8_bitrate p), Some (s8_bitrate p)) | XMpc (P7 p) => (Some (s7_bitrate p), Some (s7_bitrate p)) | XMpc (P6 p) => (Some (s6_bitrate p), Some (s6_bitrate p))
  | XOpus p => (Some (op_overall p), Some (op_audio p)) | XVorbis p => (Some (vp_overall p), Some (vp_audio p)) | XSpeex p => (Some (sp_overall p), Some (sp_audio p))
  | XWav p => (Some (IffModel.wp_overall p), Some (IffModel.wp_audio p)) | XAiff p => (Some (AiffModel.ap_overall p), Some (AiffModel.ap_audio p))
  | XWv p => (Some (WavPackModel.wp_overall p), Some (WavPackModel.wp_audio p))
  end.
Definition own_rate (x : any_props) : option N :=
  match x with
  | XAac p => Some (AacModel.ap_rate p) | XMac p => Some (mac_rate p) | XFlac p => Some (FlacModel.fp_rate p) | XMpeg p => Some (p_rate p) | XMp4 p => q_rate p
  | XMpc (P8 p) => Some (sh_rate (s8_header p)) | XMpc (P7 p) => Some (s7_rate p) | XMpc (P6 p) => Some (s6_rate p) | XOpus p => Some (op_rate p) | XVorbis p => Some (vp_rate p) | XSpeex p => Some (sp_rate p)
  | XWav p => Some (IffModel.wp_rate p) | XAiff p => Some (AiffModel.ap_rate p) | XWv p => Some (WavPackModel.wp_rate p)
  end.
(** Only the formats without loss have a number of bits for each sample. *)
Definition own_depth (x : any_props) : option N :=
  match x with
  | XMac p => Some (mac_depth p) | XFlac p => Some (FlacModel.fp_depth p) | XMp4 p => q_depth p | XWav p => Some (IffModel.wp_depth p) | XAiff p => Some (ap_size p) | XWv p => Some (WavPackModel.wp_depth p)
  | XAac _ | XMpeg _ | XMpc _ | XOpus _ | XVorbis _ | XSpeex _ => None
  end.
Definition own_channels (x : any_props) : option N :=
  match x with
  | XAac p => Some (AacModel.ap_channels p) | XMac p => Some (mac_channels p) | XFlac p => Some (FlacModel.fp_channels p) | XMpeg p => Some (p_channels p) | XMp4 p => q_channels p
  | XMpc (P8 p) => Some (sh_channels (s8_header p)) | XMpc (P7 p) => Some (s7_channels p) | XMpc (P6 p) => Some (s6_channels p) | XOpus p => Some (op_channels p) | XVorbis p => Some (vp_channels p)
  | XSpeex p => Some (sp_channels p) | XWav p => Some (IffModel.wp_channels p) | XAiff p => Some (AiffModel.ap_channels p) | XWv p => Some (WavPackModel.wp_channels p)
  end.
(** Speakers: five formats. *)
Definition own_speakers (x : any_props) : N :=
  match x with
  | XAac p => match AacModel.ap_mask p with Some m => m | None => 0 end | XWav p => match IffModel.wp_mask p with Some m => m | None => 0 end | XOpus p => op_mask p | XWv p => WavPackModel.wp_mask p
  | XMpeg p => match p_mode p with SingleChannel => 4 | DualChannel => 0 | _ => 3 end
  | _ => 0
  end.
Definition fits (o : option N) : Prop := match o with Some n => n < 256 | None => True end.
Theorem C235_fields : forall x, let q := general x in
  MpegModel.fp_duration q = own_duration x /\ (MpegModel.fp_overall q, MpegModel.fp_audio q) = own_bitrates x /\ MpegModel.fp_rate q = own_rate x /\
  (fits (own_depth x) -> MpegModel.fp_depth q = own_depth x) /\ (fits (own_channels x) -> MpegModel.fp_channels q = own_channels x) /\
  (own_speakers x <> 0 -> fp_mask q = Some (own_speakers x)) /\ (forall m, fp_mask q = Some m -> m = own_speakers x).
Proof.
  intros x q. unfold q. destruct x as [p|p|p|p|p|[p|p|p]|p|p|p|p|p|p]; cbn [general aac_file_props to_file_props mpc_file_props wv_file_props MpegModel.fp_duration MpegModel.fp_overall MpegModel.fp_audio MpegModel.fp_rate MpegModel.fp_depth
    MpegModel.fp_channels fp_mask own_duration own_bitrates own_rate own_depth own_channels own_speakers fits u8]; repeat split; try discriminate; try (intros; contradiction); try (intros; unfold u8; f_equal; now apply N.mod_small).
  - destruct (AacModel.ap_mask p); [reflexivity|contradiction].
  - intros m H. now rewrite H.
  - destruct (p_mode p); try reflexivity. contradiction.
  - intros m H. destruct (p_mode p); congruence.
  - intros H. destruct (N.eqb_spec (op_mask p) 0); [contradiction|reflexivity].
  - intros m H. destruct (op_mask p =? 0); congruence.
  - destruct (IffModel.wp_mask p); [reflexivity|contradiction].
  - intros m H. now rewrite H.
  - intros H. destruct (N.eqb_spec (WavPackModel.wp_mask p) 0); [contradiction|reflexivity].
  - intros m H. destruct (WavPackModel.wp_mask p =? 0); congruence.
Qed.
Example C235_example : general (XWv (mkWP 0x410 2000 900 890 44100 2 3 16 true)) = mkFileP 2000 (Some 900) (Some 890) (Some 44100) (Some 16) (Some 2) (Some 3) /\
  general (XWv (mkWP 0x410 2000 900 890 44100 6 0 16 true)) = mkFileP 2000 (Some 900) (Some 890) (Some 44100) (Some 16) (Some 6) None /\
  general (XMpeg (mkMP MV1 Layer3 10 128 128 44100 2 DualChannel None false false None)) = mkFileP 10 (Some 128) (Some 128) (Some 44100) None (Some 2) None.
Proof. repeat split. Qed.

(** 256 channels or more: AIFF and WavPack files can have them; the lower eight bits are reported, 0 for 256. *)
Theorem C235_channels_refuted :
  (exists p, aiff_properties (comm_chunk 256 10 16 44100) false 20 74 = Ok p /\ AiffModel.ap_channels p = 256 /\ MpegModel.fp_channels (general (XAiff p)) = Some 0) /\
  (forall p, WavPackModel.wp_channels p = 258 -> MpegModel.fp_channels (general (XWv p)) = Some 2).
Proof.
  split. 2:{ intros p H. cbn [general wv_file_props MpegModel.fp_channels]. rewrite H. reflexivity. }
  destruct (rate_exact 44100 ltac:(lia) ltac:(reflexivity)) as (FF & FP & _).
  destruct (plain_props 256 10 16 (f80_of 44100) 20 74) as (d & o & a & E); try reflexivity; try exact FF; try exact FP; [split; [discriminate|reflexivity]|]. eexists. split; [exact E|]. split; reflexivity.
Qed.

(** Speakers and channels: one for each. *)
Definition speakers_in (mask : N) : N := lenN (filter (N.testbit mask) (map N.of_nat (seq 0 32))).
Theorem C235_opus_speakers : forall data first p pos q, opus_properties data first p pos = Ok q -> op_mask q <> 0 /\ speakers_in (op_mask q) = op_channels q.
Proof.
  intros data first p pos q H. unfold opus_properties in H.
  destruct (pk_unwrap p 0) as [ident| |]; cbn [bind] in H; try discriminate H. destruct (lenN ident <? 8); [discriminate H|].
  destruct (ord (read_u8 _)) as [[version r1]| |]; cbn [bind] in H; try discriminate H. destruct (ord (read_u8 r1)) as [[channels r2]| |]; cbn [bind] in H; try discriminate H.
  destruct (ord (read_le 2 r2)) as [[skip r3]| |]; cbn [bind] in H; try discriminate H. destruct (ord (read_le 4 r3)) as [[rate r4]| |]; cbn [bind] in H; try discriminate H.
  destruct (ord (read_le 2 r4)) as [[gain r5]| |]; cbn [bind] in H; try discriminate H. destruct (ord (read_u8 r5)) as [[family r6]| |]; cbn [bind] in H; try discriminate H.
  match type of H with (if ?c then _ else _) = _ => destruct c end; [discriminate H|].
  destruct (opus_mask channels) as [mask|] eqn:M; [|discriminate H].
  assert (Q : op_mask q = mask /\ op_channels q = channels).
  { destruct (find_last_page data pos) as [l| |]; [|injection H as <-; auto|discriminate H]. destruct (0 <? _); [|injection H as <-; auto].
    do 2 (match type of H with bind ?x _ = _ => destruct x end; cbn [bind] in H; try discriminate H). destruct (pk_unwrap p 1); cbn [bind] in H; try discriminate H.
    destruct (lenN data <? _); [discriminate H|]. do 4 (match type of H with bind ?x _ = _ => destruct x end; cbn [bind] in H; try discriminate H). injection H as <-. auto. }
  destruct Q as [-> ->]. clear - M.
  destruct (N.leb_spec channels 8) as [L|L].
  - assert (X : In channels [0;1;2;3;4;5;6;7;8]) by (cbn [In]; lia). cbn [In] in X. repeat destruct X as [<- |X]; try contradiction; try discriminate M; injection M as <-; split; try discriminate; reflexivity.
  - exfalso. unfold opus_mask in M. destruct channels as [|c]; [lia|]. do 4 (destruct c as [c|c|]; try discriminate M; try lia).
Qed.
Theorem C235_aac_speakers_partial : forall h bitrate n q m, aac_properties h bitrate n = Ok q -> AacModel.ap_mask q = Some m -> AacModel.ap_channels q <> 7 -> speakers_in m = AacModel.ap_channels q.
Proof.
  intros h bitrate n q m H M C. assert (Q : AacModel.ap_mask q = mp4_mask (a_channels h) /\ AacModel.ap_channels q = a_channels h).
  { unfold aac_properties in H. destruct (0 <? bitrate); [destruct (U64_MAX <? n * 8); [discriminate H|]|]; injection H as <-; auto. }
  destruct Q as [Q1 Q2]. rewrite Q1 in M. rewrite Q2 in *. clear - M C. generalize dependent (a_channels h). intros c M C. unfold mp4_mask in M. cbv zeta in M.
  repeat (match type of M with (if c =? ?b then _ else _) = _ => destruct (N.eqb_spec c b) as [E|_]; [first [contradiction|injection M as <-; rewrite E; reflexivity]|] end). discriminate M.
Qed.
(** Seven channels have eight speakers. *)
Theorem C235_aac_speakers_refuted : forall h bitrate n q, aac_properties h bitrate n = Ok q -> a_channels h = 7 -> exists m, AacModel.ap_mask q = Some m /\ speakers_in m = 8 /\ MpegModel.fp_channels (general (XAac q)) = Some 7.
Proof.
  intros h bitrate n q H C. unfold aac_properties in H. rewrite C in H. change (mp4_mask 7) with (Some 0x63F) in H.
  destruct (0 <? bitrate); [destruct (U64_MAX <? n * 8); [discriminate H|]|]; injection H as <-; eexists; repeat split.
Qed.
(** The mask of a WAV file is reported as it is in the file. *)
Theorem C235_wav_speakers_refuted : exists p, wav_properties (fmt_chunk 0xFFFE 2 48000 192000 4 16 ++ le_enc 2 22 ++ le_enc 2 16 ++ le_enc 4 0x3F ++ le_enc 2 1 ++ repeat 0 14) 0 192000 192068 = Ok p /\
  MpegModel.fp_channels (general (XWav p)) = Some 2 /\ fp_mask (general (XWav p)) = Some 0x3F /\ speakers_in 0x3F = 6.
Proof. eexists. split; [vm_compute; reflexivity|]. repeat split. Qed.

(** Opus is decoded at 48000 Hz; the rate that is reported is the one of the input, of which the header may say 0. *)
Theorem C235_opus_rate_refuted : forall p, op_rate p = 0 -> MpegModel.fp_rate (general (XOpus p)) = Some 0.
Proof. intros p H. cbn [general MpegModel.fp_rate]. now rewrite H. Qed.

(** ** Files whose properties are not read: nothing is reported, *)
Definition nothing (q : file_props) : Prop :=
  MpegModel.fp_duration q = 0 /\ (forall n, In (Some n) [MpegModel.fp_overall q; MpegModel.fp_audio q; MpegModel.fp_rate q; MpegModel.fp_depth q; MpegModel.fp_channels q] -> n = 0) /\ fp_mask q = None.
Lemma none_or_0_iff : forall o, none_or_0 o = true <-> forall n, o = Some n -> n = 0.
Proof. intros [n|]; cbn [none_or_0]; split; try discriminate; auto. - intros H m [= <-]. now apply N.eqb_eq. - intros H. apply N.eqb_eq. auto. Qed.
Theorem C235_empty : forall q, props_empty q = true <-> nothing q.
Proof.
  intros q. unfold props_empty, nothing. rewrite !andb_true_iff, !none_or_0_iff, N.eqb_eq. cbn [In]. split.
  - intros ((((((A & B) & C) & D) & E) & F) & G). split; [exact A|]. split; [intros n H; repeat destruct H as [H|H]; eauto; contradiction|]. now destruct (fp_mask q).
  - intros (A & B & C). rewrite C. repeat split; auto; intros n H; apply B; rewrite H; tauto.
Qed.
Theorem C235_unread : (forall o data f, mo_props o = false -> wv_read o data = Ok f -> nothing (general (XWv (wf_props f)))) /\ nothing (general (XMac mac_default)) /\ nothing (general (XMp4 props_default)) /\
  nothing (general (XMpc (P8 sv8_default))) /\ nothing file_props_default.
Proof.
  split; [|repeat split; cbn; intros n H; repeat destruct H as [H|H]; try discriminate H; try contradiction; now injection H as <-].
  intros o data f MP H. assert (E : wf_props f = wv_default).
  { unfold wv_read in H. rewrite MP in H. destruct (find_id3v1 data) as [p1 fd].
    match type of H with bind ?x _ = _ => destruct x as [v1| |] end; cbn [bind] in H; try discriminate H.
    match type of H with bind ?x _ = _ => destruct x as [[[a b] c]| |] end; cbn [bind] in H; try discriminate H.
    match type of H with (if ?c then _ else _) = _ => destruct c end; [discriminate H|]. destruct (seek_back c 32); [|discriminate H].
    match type of H with bind ?x _ = _ => destruct x as [[[t h] r]| |] end; cbn [bind] in H; try discriminate H.
    match type of H with bind ?x _ = _ => destruct x as [sl| |] end; cbn [bind] in H; try discriminate H. injection H as <-. reflexivity. }
  rewrite E. apply C235_empty. reflexivity.
Qed.
(** but an MPEG file has the two speakers of stereo, without a channel. *)
Theorem C235_unread_refuted : forall inflate o data f, mo_props o = false -> mpeg_read inflate o data = Ok f ->
  general (XMpeg (mf_props f)) = mkFileP 0 (Some 0) (Some 0) (Some 0) None (Some 0) (Some 3) /\ ~ nothing (general (XMpeg (mf_props f))).
Proof.
  intros inflate o data f MP H. assert (E : mf_props f = mprops_default).
  { unfold mpeg_read in H. rewrite MP in H. destruct (skip_zeros data 0); [|discriminate H].
    match type of H with bind ?x _ = _ => destruct x as [[[a b] c]| |] end; cbn [bind] in H; try discriminate H.
    match type of H with bind ?x _ = _ => destruct x as [[[d e] g]| |] end; cbn [bind] in H; try discriminate H. injection H as <-. reflexivity. }
  rewrite E. split; [reflexivity|]. intros (_ & _ & M). discriminate M.
Qed.
