(** Theorems about reading MPEG audio files. *)
From Verif Require Import BaseLemmas StrLemmas Id3v2HeaderProof Id3v2HeaderThm ApeThm2 ApeProof2 TextProof Id3v1Thm FrameTotalThm.
From Verif Require Import Id3v1Model ApeModel FrameReadModel MathModel Id3v2HeaderModel MpegProof5.
From Verif Require Import MpegSpec.

(** ** C164: the header of a frame *)
Theorem C164_decode : forall f, valid f -> exists h, header_read (word f) = Some h /\
  m_version h = fl_version f /\ m_layer h = fl_layer f /\ m_bitrate h = bitrate_of f /\ m_rate h = rate_of f /\ m_samples h = samples_of f /\
  m_data_start h = xing_offset f /\ m_mode h = fl_mode f /\ m_ext h = (match fl_mode f with JointStereo => Some (fl_ext f) | _ => None end) /\
  m_copyright h = fl_copyright f /\ m_original h = fl_original f /\ m_emphasis h = fl_emphasis f.
Proof. intros f V. exists (header_of f). split; [now apply decode|]. repeat split. Qed.
(** Nothing else is a header. *)
Theorem C164_only : forall w, w < 2 ^ 32 -> N.shiftr w 21 = 0x7FF -> (header_read w <> None <-> exists f, valid f /\ word f = w).
Proof.
  intros w L S. split.
  - intros H. destruct (header_read w) as [h|] eqn:E; [|contradiction]. destruct (accepted w h S E) as (f & V & W & _). eauto.
  - intros (f & V & <-). rewrite decode by auto. discriminate.
Qed.
Example C164_example : let f := mkFld MV1 Layer3 true 9 0 false false JointStereo 2 false true None in
  word f = 0xFFFB9064 /\ valid f /\ option_map (fun h => (m_rate h, m_bitrate h, m_len h, m_ext h)) (header_read 0xFFFB9064) = Some (44100, 128, 417, Some 2).
Proof. repeat split; vm_compute; try reflexivity; discriminate. Qed.
(** Bad bit rates, sample rates, versions and layers *)
Example C164_example_bad : map header_read [0xFFFB0064; 0xFFFBF064; 0xFFFB9C64; 0xFFEB9064; 0xFFF99064] = [None; None; None; None; None].
Proof. reflexivity. Qed.

(** ** C165: the length of a frame *)
Theorem C165_length_partial : forall f, valid f -> regular f -> option_map m_len (header_read (word f)) = Some (length_of f).
Proof. intros f V R. rewrite decode by auto. cbn [option_map m_len header_of]. now rewrite lengths. Qed.
(** Layer I at 44.1 kHz: the length is not a number of slots. *)
Theorem C165_length_refuted : exists f, valid f /\ fl_layer f = Layer1 /\ option_map m_len (header_read (word f)) = Some 417 /\ length_of f = 416.
Proof. exists (mkFld MV1 Layer1 true 12 0 false false Stereo 0 false false None). repeat split; vm_compute; try reflexivity; discriminate. Qed.
Example C165_example : length_of (mkFld MV1 Layer3 true 9 0 true false JointStereo 2 false true None) = 418 /\ length_of (mkFld MV1 Layer1 true 12 1 true false Stereo 0 false true None) = 388
  /\ length_of (mkFld MV2_5 Layer3 true 2 2 true false Stereo 0 false true None) = 145.
Proof. repeat split. Qed.

(** ** C166: the first frame sync *)
Theorem C166_first_sync : forall r, bytes_ok r ->
  match search_for_frame_sync r with
  | Some i => (exists rest b, dropN i r = 255 :: b :: rest /\ 224 <= b) /\ forall j rest b, j < i -> dropN j r = 255 :: b :: rest -> b < 224
  | None => forall j rest b, dropN j r = 255 :: b :: rest -> b < 224
  end.
Proof.
  intros r OK. pose proof (search_spec r OK) as H.
  assert (G : forall j rest b, ~ sync_at r j -> dropN j r = 255 :: b :: rest -> b < 224).
  { intros j rest b NS D. destruct (N.lt_ge_cases b 224); auto. exfalso. apply NS. exists 255, b, rest. auto. }
  destruct (search_for_frame_sync r) as [i|].
  - destruct H as [(a & b & rest & D & -> & B) N]. split; [eauto|]. intros j rest' b' J. apply G. auto.
  - intros j rest b. now apply G.
Qed.
Example C166_example : search_for_frame_sync [255; 0; 1; 255; 255; 251; 3] = Some 3 /\ search_for_frame_sync [255] = None /\ search_for_frame_sync [255; 223; 255] = None.
Proof. repeat split. Qed.

(** ** C167: the first frame of a stream is found *)
(** Bytes without a frame sync, not ending in 0xFF. *)
Definition sync_free (junk : bytes) : Prop := forall p b q, junk ++ [255] <> p ++ 255 :: b :: q \/ b < 224.
Lemma sync_free_iff : forall junk, sync_free junk -> MpegProof3.sync_free junk.
Proof.
  intros junk S j (a & b & rest & D & -> & B). destruct (S (takeN j (junk ++ [255])) b rest) as [X|X]; [|lia]. apply X. rewrite <- D. symmetry. apply takeN_dropN.
Qed.
Theorem C167_found_partial : forall pre junk l x y, stream_ok (x :: y :: l) -> regular (fst x) -> bytes_ok junk -> sync_free junk -> forall rest fuel, (0 < fuel)%nat ->
  exists h, find_next_frame fuel (pre ++ junk ++ audio_of (x :: y :: l) ++ rest) (lenN pre) = Ok (Some (h, lenN (pre ++ junk))) /\ header_read (word (fst x)) = Some h.
Proof.
  intros pre junk l x y S R OJ SF rest [|fuel] F; [lia|]. cbn [stream_ok] in S. apply Forall_cons_iff in S as [[S1 _] S]. apply Forall_cons_iff in S as [[S2 K2] _].
  exists (header_of (fst x)). rewrite !audio_cons, <- !app_assoc. split; [|apply decode, S1]. apply find_frames; auto. now apply sync_free_iff.
Qed.
(** A whole file: zeros, ID3v2 tags (a footer after the first), frames, an APE tag, an ID3v1 tag. *)
Theorem C167_file_partial : forall inflate o m x l, mfile_ok inflate o m -> mx_frames m = x :: l -> exists v2 h,
  lead inflate (S (length (file_bytes m))) (file_bytes m) o None None (N.of_nat (mx_zeros m)) = Ok (v2, None, Some (h, lenN (before m))) /\ header_read (word (fst x)) = Some h.
Proof.
  intros inflate o m x l OK EF. destruct OK as [OT OF OS OR OA OV OD]. rewrite EF in OS, OR. destruct l as [|y l]; [contradiction|]. unfold stream_ok in OS.
  apply Forall_cons_iff in OS as [[S1 _] OS]. apply Forall_cons_iff in OS as [[S2 K2] _]. apply Forall_cons_iff in OR as [R1 _].
  assert (DD : file_bytes m = repeat 0 (mx_zeros m) ++ front_of (mx_foot m) (mx_tags m) ++ audio_of (x :: y :: l) ++ mx_ape m ++ mx_v1 m).
  { unfold file_bytes, through, before. rewrite EF. now rewrite <- !app_assoc. }
  exists (if mo_tags o then merged (mx_tags m) else None), (header_of (fst x)). split; [|apply decode, S1].
  pose proof (front_len (mx_foot m) (mx_tags m)) as FN.
  replace (S (length (file_bytes m))) with (length (mx_tags m) + S (length (file_bytes m) - length (mx_tags m)))%nat by (rewrite DD, !app_length; lia).
  replace (N.of_nat (mx_zeros m)) with (lenN (repeat 0 (mx_zeros m))) by apply lenN_repeat.
  set (fu := S (length (file_bytes m) - length (mx_tags m))). assert (FU : exists k, fu = S k) by (unfold fu; eauto). destruct FU as [k FU]. rewrite FU. rewrite DD.
  rewrite lead_front by auto. rewrite !audio_cons.
  replace (repeat 0 (mx_zeros m) ++ front_of (mx_foot m) (mx_tags m) ++ (MpegSpec.frame_bytes x ++ MpegSpec.frame_bytes y ++ audio_of l) ++ mx_ape m ++ mx_v1 m)
    with (before m ++ MpegSpec.frame_bytes x ++ MpegSpec.frame_bytes y ++ audio_of l ++ mx_ape m ++ mx_v1 m) by (unfold before; now rewrite <- !app_assoc).
  fold (before m). rewrite lead_frames; auto. intros NO. destruct (mo_tags o); auto. destruct (mx_tags m) as [|t ts] eqn:ET; [|discriminate]. left.
  unfold before. rewrite ET. cbn [front_of]. rewrite app_nil_r. apply no_id3_zeros.
Qed.
(** Frames of 24 bytes: MPEG 2, layer III, 8 kbit/s, 24 kHz, mono *)
Definition kind0 : fields := mkFld MV2 Layer3 true 1 1 false false SingleChannel 0 false false None.
Definition frame0 : fields * bytes := (kind0, repeat 0 20).
Lemma frame0_ok : frame_ok frame0. Proof. repeat split; vm_compute; try reflexivity; discriminate. Qed.
Definition opts0 : mopts := mkMO (mkFO BestAttempt true true) true true 1024.
Definition no_inflate (b : bytes) : option bytes := None.
(** A byte 0xFF before the frame hides it: the sync is seen one byte early, and the search goes on behind the true one. *)
Theorem C167_byte_before_refuted : exists data, data = [1; 255] ++ audio_of [frame0; frame0; frame0] /\ mpeg_read no_inflate opts0 (audio_of [frame0; frame0; frame0]) <> Err MNoFrame /\
  exists h, find_next_frame 100 data 0 = Ok (Some (h, 26)).
Proof. eexists. split; [reflexivity|]. split; [vm_compute; discriminate|]. eexists. vm_compute. reflexivity. Qed.
(** One frame is not enough. *)
Theorem C167_single_refuted : exists x, frame_ok x /\ mpeg_read no_inflate opts0 (audio_of [x]) = Err MNoFrame /\ mpeg_read no_inflate opts0 (audio_of [x] ++ repeat 0 3) = Err MNoFrame.
Proof. exists (mkFld MV1 Layer3 true 1 1 false false Stereo 0 false false None, repeat 0 92). split; [repeat split; vm_compute; try reflexivity; discriminate|]. split; vm_compute; reflexivity. Qed.
(** Something like a sync in the last bytes is an error. *)
Theorem C167_end_refuted : find_next_frame 100 (repeat 1 20 ++ [255; 251; 1]) 0 = Err MIo.
Proof. reflexivity. Qed.
Example C167_example : stream_ok [frame0; frame0] /\ sync_free [1; 2; 255; 3] /\ find_next_frame 100 ([1; 2; 255; 3] ++ audio_of [frame0; frame0]) 0 = Ok (Some (header_of kind0, 4)).
Proof.
  split. { pose proof frame0_ok. repeat constructor; auto; try apply H. }
  split; [|vm_compute; reflexivity]. intros p b q. destruct (N.lt_ge_cases b 224) as [|B]; auto. left. intros E.
  destruct p as [|p1 [|p2 [|p3 [|p4 [|p5 p]]]]]; injection E as E; try discriminate; try lia; subst; try lia. destruct p; discriminate.
Qed.

(** ** C168: variable bit rate headers *)
(** In milliseconds, rounded *)
Definition rounded (a b : N) : N := (a + b / 2) / b.
(** [what] follows the header and the side information of the frame. *)
Definition carries (x : fields * bytes) (what : bytes) : Prop := exists side rest, snd x = side ++ what ++ rest /\ 4 + lenN side = xing_offset (fst x).
Definition xing (name : bytes) (flags frames size : N) : bytes := name ++ [0; 0; 0; flags] ++ be_enc 4 frames ++ be_enc 4 size.
Definition vbri (misc : bytes) (size frames : N) : bytes := $"VBRI" ++ misc ++ be_enc 4 size ++ be_enc 4 frames.
Lemma marked : forall inflate o m x l v1t mark v, mfile_ok inflate o m -> mx_frames m = x :: l -> v1_of o (mx_v1 m) v1t -> mo_props o = true -> lenN (file_bytes m) < 2 ^ 61 ->
  carries x mark -> 16 <= lenN mark <= 32 -> (forall t, 32 <= lenN (mark ++ t) -> vbr_read (takeN 32 (mark ++ t)) = Ok (Some v)) ->
  0 < vb_frames v < 2 ^ 32 -> 0 < vb_size v < 2 ^ 32 ->
  let d := rounded (1000 * samples_of (fst x) * vb_frames v) (rate_of (fst x)) in
  exists f, mpeg_read inflate o (file_bytes m) = Ok f /\ 0 < d /\
    mf_props f = make (fst x) d (8 * lenN (file_bytes m) / d mod 2 ^ 32) (8 * vb_size v / d).
Proof.
  intros inflate o m x l v1t mark v OK EF V1 P L (side & rest & SX & OS) LM VR BF BS d.
  destruct (read_main inflate o m x l v1t OK EF V1) as (ape & _ & _ & E). cbv zeta in E. rewrite P in E.
  assert (OK' := OK). destruct OK' as [_ _ S R _ _ _]. rewrite EF in S, R. destruct l as [|y l]; [contradiction|]. unfold stream_ok in S.
  apply Forall_cons_iff in S as [[S1 _] S]. apply Forall_cons_iff in S as [[S2 K2] _]. apply Forall_cons_iff in R as [R1 R]. apply Forall_cons_iff in R as [R2 _].
  pose proof (frame_len_ok y S2 R2) as LY. pose proof (lengths_mod (fst y) (proj1 S2)) as (LY' & _).
  assert (D : dropN (lenN (before m) + xing_offset (fst x)) (file_bytes m) = mark ++ rest ++ MpegSpec.frame_bytes y ++ audio_of l ++ mx_ape m ++ mx_v1 m).
  { unfold file_bytes, through. rewrite EF, !audio_cons. unfold MpegSpec.frame_bytes at 1. rewrite SX.
    replace (((before m ++ (be_enc 4 (word (fst x)) ++ side ++ mark ++ rest) ++ MpegSpec.frame_bytes y ++ audio_of l) ++ mx_ape m ++ mx_v1 m))
      with ((before m ++ be_enc 4 (word (fst x)) ++ side) ++ mark ++ rest ++ MpegSpec.frame_bytes y ++ audio_of l ++ mx_ape m ++ mx_v1 m) by (now rewrite <- !app_assoc).
    apply dropN_app. rewrite !lenN_app, be_enc_len. change (N.of_nat 4) with 4. lia. }
  rewrite D in E. unfold read_exact in E. set (tl := rest ++ MpegSpec.frame_bytes y ++ _) in *.
  assert (LT : 32 <= lenN (mark ++ tl)) by (unfold tl; rewrite !lenN_app; lia). replace (32 <=? lenN (mark ++ tl)) with true in E by (symmetry; apply N.leb_le; auto).
  rewrite VR in E by auto. cbn [bind] in E.
  destruct (vbr_props (file_bytes m) (fst x) (lenN (before m)) (lenN (through m)) v (lenN (file_bytes m)) (proj1 S1) L BF BS) as [DP VP]. rewrite VP in E. cbn [bind] in E.
  eexists. split; [exact E|]. split; [exact DP|]. cbn [mf_props]. unfold d, rounded. now rewrite (N.mul_comm (lenN (file_bytes m)) 8), (N.mul_comm (vb_size v) 8).
Qed.
Lemma take_app : forall n (a b : bytes), lenN a <= n -> takeN n (a ++ b) = a ++ takeN (n - lenN a) b.
Proof. intros n a b H. unfold takeN, lenN in *. rewrite firstn_app. rewrite firstn_all2 by lia. do 2 f_equal. lia. Qed.
Lemma xing_read : forall name flags frames size t, name = $"Xing" \/ name = $"Info" -> N.land flags 3 = 3 -> frames < 2 ^ 32 -> size < 2 ^ 32 -> 32 <= lenN (xing name flags frames size ++ t) ->
  vbr_read (takeN 32 (xing name flags frames size ++ t)) = Ok (Some (mkVbr (if list_eqb name ($"Xing") then Xing else Info) frames size)).
Proof.
  intros name flags frames size t NM FL F S LT. assert (LX : lenN (xing name flags frames size) = 16). { unfold xing. rewrite !lenN_app, !be_enc_len. destruct NM as [-> | ->]; reflexivity. }
  rewrite take_app by lia. rewrite LX. set (u := takeN (32 - 16) t). assert (LU : lenN (xing name flags frames size ++ u) = 32). { rewrite lenN_app, LX. unfold u. rewrite lenN_takeN. rewrite lenN_app, LX in LT. lia. }
  unfold vbr_read. rewrite LU. unfold xing. rewrite <- !app_assoc. rewrite read_exact_app by (destruct NM as [-> | ->]; reflexivity).
  replace (list_eqb name ($"Xing") || list_eqb name ($"Info")) with true by (destruct NM as [-> | ->]; reflexivity). change (32 <? 16) with false. cbv iota.
  rewrite read_exact_app by reflexivity. cbn [nth]. rewrite FL. change (negb (3 =? 3)) with false. cbv iota. rewrite !read_be_app by auto. reflexivity.
Qed.
(** The Xing (or Info) header gives the number of frames and of bytes. *)
Theorem C168_xing : forall inflate o m x l v1t name flags frames size, mfile_ok inflate o m -> mx_frames m = x :: l -> v1_of o (mx_v1 m) v1t -> mo_props o = true ->
  lenN (file_bytes m) < 2 ^ 61 -> name = $"Xing" \/ name = $"Info" -> N.land flags 3 = 3 -> 0 < frames < 2 ^ 32 -> 0 < size < 2 ^ 32 -> carries x (xing name flags frames size) ->
  let d := rounded (1000 * samples_of (fst x) * frames) (rate_of (fst x)) in
  exists f, mpeg_read inflate o (file_bytes m) = Ok f /\ 0 < d /\ p_duration (mf_props f) = d /\ p_overall (mf_props f) = 8 * lenN (file_bytes m) / d mod 2 ^ 32 /\
    p_audio (mf_props f) = 8 * size / d /\ p_rate (mf_props f) = rate_of (fst x) /\ p_channels (mf_props f) = match fl_mode (fst x) with SingleChannel => 1 | _ => 2 end.
Proof.
  intros inflate o m x l v1t name flags frames size OK EF V1 P L NM FL BF BS C d.
  destruct (marked inflate o m x l v1t (xing name flags frames size) (mkVbr (if list_eqb name ($"Xing") then Xing else Info) frames size) OK EF V1 P L C) as (f & E & D & PR); auto.
  - unfold xing. rewrite !lenN_app, !be_enc_len. destruct NM as [-> | ->]; vm_compute; split; discriminate.
  - intros t LT. apply xing_read; auto; lia.
  - exists f. rewrite PR. repeat split; auto.
Qed.
(** The VBRI header is found if the frame is stereo and MPEG 1. *)
Theorem C168_vbri_partial : forall inflate o m x l v1t misc size frames, mfile_ok inflate o m -> mx_frames m = x :: l -> v1_of o (mx_v1 m) v1t -> mo_props o = true ->
  lenN (file_bytes m) < 2 ^ 61 -> lenN misc = 6 -> 0 < frames < 2 ^ 32 -> 0 < size < 2 ^ 32 -> xing_offset (fst x) = 36 -> carries x (vbri misc size frames) ->
  let d := rounded (1000 * samples_of (fst x) * frames) (rate_of (fst x)) in
  exists f, mpeg_read inflate o (file_bytes m) = Ok f /\ 0 < d /\ p_duration (mf_props f) = d /\ p_overall (mf_props f) = 8 * lenN (file_bytes m) / d mod 2 ^ 32 /\
    p_audio (mf_props f) = 8 * size / d.
Proof.
  intros inflate o m x l v1t misc size frames OK EF V1 P L LM BF BS _ C d.
  assert (LX : lenN (vbri misc size frames) = 18). { unfold vbri. rewrite !lenN_app, !be_enc_len, LM. reflexivity. }
  destruct (marked inflate o m x l v1t (vbri misc size frames) (mkVbr Vbri frames size) OK EF V1 P L C) as (f & E & D & PR); auto.
  - lia.
  - intros t LT. rewrite take_app by lia. rewrite LX. set (u := takeN (32 - 18) t). assert (LU : lenN (vbri misc size frames ++ u) = 32). { rewrite lenN_app, LX. unfold u. rewrite lenN_takeN. rewrite lenN_app, LX in LT. lia. }
    unfold vbr_read. rewrite LU. unfold vbri. rewrite <- !app_assoc. rewrite read_exact_app by reflexivity. change (list_eqb ($"VBRI") ($"Xing") || list_eqb ($"VBRI") ($"Info")) with false. cbv iota.
    change (list_eqb ($"VBRI") ($"VBRI")) with true. change (32 <? 32) with false. cbv iota. rewrite read_exact_app by auto. rewrite !read_be_app by (change (2 ^ (8 * N.of_nat 4)) with (2 ^ 32); lia). reflexivity.
  - exists f. rewrite PR. repeat split; auto.
Qed.
(** A VBRI header is always 32 bytes after the frame header; in a mono file it is not looked for there. 100 frames, 2613 ms *)
Definition kind1 : fields := mkFld MV1 Layer3 true 9 0 false false SingleChannel 0 false false None.
Definition vbri_file : bytes := audio_of [(kind1, repeat 0 32 ++ vbri [0; 1; 0; 0; 0; 0] 41700 100 ++ repeat 0 363); (kind1, repeat 0 413)].
Theorem C168_vbri_refuted : exists f, mpeg_read no_inflate opts0 vbri_file = Ok f /\ p_duration (mf_props f) = 52 /\ rounded (1000 * 1152 * 100) 44100 = 2612.
Proof. eexists. split; [vm_compute; reflexivity|]. split; reflexivity. Qed.
Definition kind2 : fields := mkFld MV1 Layer3 true 9 0 false false JointStereo 0 false false None.
Definition xing_file : bytes := audio_of [(kind2, repeat 0 32 ++ xing ($"Xing") 15 1000 300000 ++ repeat 0 365); (kind2, repeat 0 413)].
Example C168_example : exists f, mpeg_read no_inflate opts0 xing_file = Ok f /\ p_duration (mf_props f) = 26122 /\ p_audio (mf_props f) = 91 /\ p_channels (mf_props f) = 2.
Proof. eexists. split; [vm_compute; reflexivity|]. repeat split. Qed.

(** ** C169: constant bit rate *)
Definition slot (f : fields) : N := match fl_layer f with Layer1 => 4 | _ => 1 end.
(** Nothing in the frame looks like a header after its first byte. *)
Definition quiet (z : fields * bytes) : Prop := bytes_ok (snd z) /\ forall p f q, MpegSpec.frame_bytes z = p ++ be_enc 4 (word f) ++ q -> valid f -> p = [].
Definition plain (x : fields * bytes) (data : bytes) : Prop := Forall (fun name => ~ exists p q, data = p ++ name ++ q /\ lenN p = xing_offset (fst x)) [$"Xing"; $"Info"; $"VBRI"].
Lemma quiet_iff : forall z, quiet z -> MpegProof5.quiet z. Proof. intros z [_ Q]. exact Q. Qed.
Lemma plain_read : forall x d b r, plain x d -> read_exact 32 (dropN (xing_offset (fst x)) d) = Some (b, r) -> vbr_read b = Ok None.
Proof.
  intros x d b r P R. apply read_exact_spec in R as [R L]. unfold plain in P. rewrite !Forall_cons_iff in P. destruct P as (P1 & P2 & P3 & _).
  unfold vbr_read. destruct (read_exact 4 b) as [[h b']|] eqn:E; [|unfold read_exact in E; rewrite L in E; discriminate]. apply read_exact_spec in E as [E LH].
  assert (LD : xing_offset (fst x) <= lenN d). { pose proof (f_equal (@lenN N) R) as X. rewrite lenN_dropN, lenN_app in X. lia. }
  assert (N : forall name, ~ (exists p q, d = p ++ name ++ q /\ lenN p = xing_offset (fst x)) -> list_eqb h name = false).
  { intros name NE. destruct (list_eqb h name) eqn:X; auto. apply list_eqb_eq in X. subst name. exfalso. apply NE. exists (takeN (xing_offset (fst x)) d), (b' ++ r).
    rewrite lenN_takeN. split; [|lia]. rewrite (app_assoc h b' r), <- E, <- R. symmetry. apply takeN_dropN. }
  rewrite (N _ P1), (N _ P2), (N _ P3). reflexivity.
Qed.
Theorem C169_cbr : forall inflate o m x l v1t z init, mfile_ok inflate o m -> mx_frames m = x :: l -> x :: l = init ++ [z] -> v1_of o (mx_v1 m) v1t -> mo_props o = true ->
  lenN (file_bytes m) < 2 ^ 59 -> plain x (audio_of (mx_frames m) ++ mx_ape m ++ mx_v1 m) -> quiet z -> xing_offset (fst x) + 32 <= lenN (audio_of (mx_frames m)) ->
  let d := rounded (8 * lenN (audio_of (mx_frames m))) (bitrate_of (fst x)) in
  exists f, mpeg_read inflate o (file_bytes m) = Ok f /\ p_duration (mf_props f) = d /\ p_audio (mf_props f) = bitrate_of (fst x) /\
    (d <> 0 -> p_overall (mf_props f) = 8 * lenN (file_bytes m) / d mod 2 ^ 32).
Proof.
  intros inflate o m x l v1t z init OK EF EZ V1 P L PL QZ LA d.
  destruct (read_main inflate o m x l v1t OK EF V1) as (ape & _ & _ & E). cbv zeta in E. rewrite P in E.
  assert (OK' := OK). destruct OK' as [_ _ S R _ _ _]. rewrite EF in S, R.
  assert (SZ : frame_ok x /\ frame_ok z /\ same_kind (fst z) (fst x) /\ regular (fst z)).
  { destruct l as [|y l]; [contradiction|]. unfold stream_ok in S. rewrite EZ in S, R. apply Forall_app in S as [S0 S]. apply Forall_app in R as [_ R]. apply Forall_cons_iff in S as [[S1 S2] _]. apply Forall_cons_iff in R as [R _].
    repeat split; try apply S1; try apply S2; auto. all: destruct init as [|i init]; [discriminate EZ|]; injection EZ as -> _; apply Forall_cons_iff in S0 as [[S0 _] _]; apply S0. }
  destruct SZ as (OX & OZ & KZ & RZ).
  set (D := audio_of (mx_frames m) ++ mx_ape m ++ mx_v1 m) in *.
  assert (DD : file_bytes m = before m ++ D) by (unfold D, file_bytes, through; now rewrite <- !app_assoc).
  assert (DR : dropN (lenN (before m) + xing_offset (fst x)) (file_bytes m) = dropN (xing_offset (fst x)) D). { rewrite DD, <- dropN_dropN. now rewrite dropN_app. }
  rewrite DR in E. destruct (read_exact 32 (dropN (xing_offset (fst x)) D)) as [[b r]|] eqn:RE.
  2:{ exfalso. unfold read_exact in RE. rewrite lenN_dropN in RE. destruct (N.leb_spec 32 (lenN D - xing_offset (fst x))) as [|X]; [discriminate|]. unfold D in X. rewrite !lenN_app in X. lia. }
  rewrite (plain_read x D b r PL RE) in E. cbn [bind] in E.
  assert (AU : audio_of (mx_frames m) = audio_of init ++ MpegSpec.frame_bytes z). { rewrite EF, EZ. unfold audio_of. rewrite flat_map_app. cbn [flat_map]. now rewrite app_nil_r. }
  assert (TH : through m = (before m ++ audio_of init) ++ MpegSpec.frame_bytes z). { unfold through. rewrite AU. now rewrite app_assoc. }
  assert (LZ := frame_len_ok z OZ RZ).
  pose proof (last_in (before m ++ audio_of init) z (mx_ape m ++ mx_v1 m) (fst x) OZ RZ (proj1 QZ) (quiet_iff z QZ) KZ) as LI. cbv zeta in LI. rewrite <- TH in LI. rewrite app_assoc, <- TH in LI. fold (file_bytes m) in LI.
  pose proof (cbr_props (file_bytes m) (fst x) (lenN (before m)) (lenN (through m)) None (lenN (file_bytes m)) (lenN (before m ++ audio_of init)) (fst z) (proj1 OX) (proj1 OZ) L) as CP. cbv zeta in CP.
  rewrite CP in E; auto.
  2:{ unfold file_bytes. rewrite TH, !lenN_app. lia. } 2:{ rewrite lenN_app. lia. }
  replace (lenN (before m ++ audio_of init) + code_length (fst z) - lenN (before m)) with (lenN (audio_of (mx_frames m))) in E by (rewrite AU, !lenN_app; lia).
  cbn [bind] in E. eexists. split; [exact E|]. cbn [mf_props make p_duration p_audio p_overall].
  replace (lenN (audio_of (mx_frames m)) * 8) with (8 * lenN (audio_of (mx_frames m))) by lia. fold (rounded (8 * lenN (audio_of (mx_frames m))) (bitrate_of (fst x))). fold d.
  split; [reflexivity|]. split; [reflexivity|]. intros ND. destruct (N.eqb_spec d 0); [contradiction|]. f_equal. f_equal. lia.
Qed.
(** How far the length of [l] can be from the time it plays: 8 bits and slots. *)
Lemma stream_length : forall f l, Forall (fun z => frame_ok z /\ same_kind (fst z) f) l -> Forall (fun z => fl_bitrate (fst z) = fl_bitrate f) l -> valid f ->
  let n := N.of_nat (length l) in let hz := rate_of f in let k := bitrate_of f in
  8 * hz * lenN (audio_of l) <= 1000 * n * samples_of f * k + 8 * slot f * n * hz /\ 1000 * n * samples_of f * k <= 8 * hz * lenN (audio_of l) + 8 * slot f * n * hz.
Proof.
  intros f l S B V n hz k. unfold n. clear n. pose proof (rate_pos f V) as RP. fold hz in RP. induction l as [|z l IH]; [cbn [length audio_of flat_map]; rewrite lenN_nil; lia|].
  apply Forall_cons_iff in S as [[[VZ LZ] (K1 & K2 & K3)] S]. apply Forall_cons_iff in B as [B1 B]. specialize (IH S B).
  rewrite audio_cons, lenN_app. assert (LF : lenN (MpegSpec.frame_bytes z) = length_of (fst z)) by (unfold MpegSpec.frame_bytes; rewrite lenN_app, be_enc_len; exact LZ). rewrite LF.
  assert (X : 8 * hz * length_of (fst z) <= 1000 * samples_of f * k + 8 * slot f * hz /\ 1000 * samples_of f * k <= 8 * hz * length_of (fst z) + 8 * slot f * hz).
  { unfold length_of, slot, samples_of. replace (bitrate_of (fst z)) with k by (unfold k, bitrate_of; now rewrite B1, K1, K2). replace (rate_of (fst z)) with hz by (unfold hz, rate_of; now rewrite K1, K3). rewrite K1, K2.
    assert (G : forall a, hz * (a / hz) <= a < hz * (a / hz) + hz). { intros a. pose proof (N.div_mod a hz ltac:(lia)). pose proof (N.mod_lt a hz ltac:(lia)). lia. }
    destruct (fl_layer f); [pose proof (G (12 * 1000 * k)) as H|pose proof (G (1152 / 8 * 1000 * k)) as H|destruct (fl_version f); [pose proof (G (1152 / 8 * 1000 * k)) as H|pose proof (G (576 / 8 * 1000 * k)) as H|pose proof (G (576 / 8 * 1000 * k)) as H]];
      change (1152 / 8) with 144 in *; change (576 / 8) with 72 in *; match type of H with _ * ?q <= _ < _ => set (u := q) in * end; destruct (fl_padded (fst z)); cbn [bit]; lia. }
  replace (N.of_nat (length (z :: l))) with (N.of_nat (length l) + 1) by (cbn [length]; lia). lia.
Qed.
Theorem C169_accuracy : forall f l, stream_ok ((f) :: l) -> Forall (fun z => fl_bitrate (fst z) = fl_bitrate (fst f)) (f :: l) ->
  let n := N.of_nat (length (f :: l)) in let hz := rate_of (fst f) in let k := bitrate_of (fst f) in
  let d := rounded (8 * lenN (audio_of (f :: l))) k in
  2 * hz * k * d <= 2000 * n * samples_of (fst f) * k + 16 * slot (fst f) * n * hz + hz * k /\ 2000 * n * samples_of (fst f) * k <= 2 * hz * k * d + 16 * slot (fst f) * n * hz + hz * k.
Proof.
  intros f l S B n hz k d. assert (S' : Forall (fun z => frame_ok z /\ same_kind (fst z) (fst f)) (f :: l)) by (destruct l; [contradiction|exact S]).
  assert (V : valid (fst f)) by (apply Forall_cons_iff in S' as [[[V _] _] _]; exact V). destruct (stream_length (fst f) (f :: l) S' B V) as [A1 A2]. fold n hz k in A1, A2.
  pose proof (bitrate_pos (fst f) V) as K. fold k in K. unfold d, rounded. set (a := 8 * lenN (audio_of (f :: l))) in *.
  pose proof (N.div_mod (a + k / 2) k K) as DM. pose proof (N.mod_lt (a + k / 2) k K) as ML. pose proof (N.div_mod k 2 ltac:(lia)) as D2. pose proof (N.mod_lt k 2 ltac:(lia)) as M2.
  set (q := (a + k / 2) / k) in *. assert (Q1 : 2 * k * q <= 2 * a + k) by lia. assert (Q2 : 2 * a <= 2 * k * q + k) by lia.
  assert (Q1' : hz * (2 * k * q) <= hz * (2 * a + k)) by (apply N.mul_le_mono_l; auto). assert (Q2' : hz * (2 * a) <= hz * (2 * k * q + k)) by (apply N.mul_le_mono_l; auto).
  unfold a in *. lia.
Qed.
(** Without a header the bit rate of the first frame is taken for all. *)
Theorem C169_vbr_refuted : exists l f, stream_ok l /\ mpeg_read no_inflate opts0 (audio_of l) = Ok f /\ length l = 4%nat /\ p_duration (mf_props f) = 624 /\ rounded (1000 * 4 * 576) 24000 = 96.
Proof.
  exists [frame0; (mkFld MV2 Layer3 true 10 1 false false SingleChannel 0 false false None, repeat 0 (N.to_nat 284)); (mkFld MV2 Layer3 true 10 1 false false SingleChannel 0 false false None, repeat 0 (N.to_nat 284)); frame0].
  eexists. split. { pose proof frame0_ok. repeat constructor; auto; try apply H; vm_compute; try reflexivity; discriminate. } split; [vm_compute; reflexivity|]. repeat split.
Qed.
(** 32 bytes must follow the place of the Xing header. *)
Theorem C169_short_refuted : exists l, stream_ok l /\ length l = 2%nat /\ mpeg_read no_inflate opts0 (audio_of l) = Err MIo.
Proof.
  exists [(mkFld MV2 Layer3 true 1 1 false false Stereo 0 false false None, repeat 0 20); (mkFld MV2 Layer3 true 1 1 false false Stereo 0 false false None, repeat 0 20)].
  split. { repeat constructor; vm_compute; try reflexivity; discriminate. } split; [reflexivity|]. vm_compute. reflexivity.
Qed.
Example C169_example : exists f, mpeg_read no_inflate opts0 (audio_of [frame0; frame0; frame0; frame0; frame0]) = Ok f /\ p_duration (mf_props f) = 120 /\ p_audio (mf_props f) = 8 /\ p_overall (mf_props f) = 8 /\ p_rate (mf_props f) = 24000.
Proof. eexists. split; [vm_compute; reflexivity|]. repeat split. Qed.

(** ** C170: reading ends and does not panic *)
Theorem C170_total : forall inflate o data, (forall b c, inflate b = Some c -> lenN c <= lenN b) -> bytes_ok data -> lenN data < 2 ^ 59 -> mpeg_read inflate o data <> Panic.
Proof.
  intros inflate o data I OK L. unfold mpeg_read. destruct (skip_zeros data 0) as [pos|]; [|discriminate].
  destruct (lead_total inflate I o data OK (S (length data)) None None pos) as [LT LS]; [lia|unfold lenN; lia|].
  destruct (lead inflate (S (length data)) data o None None pos) as [[[v2 ape] first]| |]; [|discriminate|contradiction]. cbn [bind].
  destruct (tail_total data o ape OK) as [TT TS]. destruct (tail data o ape) as [[[v1 ape'] last]| |]; [|discriminate|contradiction]. cbn [bind].
  specialize (TS _ _ _ eq_refl). destruct (mo_props o); [|discriminate]. destruct first as [[h start]|]; [|discriminate]. destruct (LS _ _ _ _ eq_refl) as (_ & f & V & ->).
  destruct (read_exact 32 _) as [[b r]|] eqn:RE; [|discriminate]. pose proof (vbr_total b) as VT.
  assert (OB : bytes_ok b). { apply read_exact_spec in RE as [RE _]. pose proof (ok_drop (start + m_data_start (header_of f)) data OK) as OD. rewrite RE in OD. now apply Forall_app in OD as [OD _]. }
  pose proof (vbr_bound b) as VB.
  destruct (vbr_read b) as [vbr| |]; [|discriminate|contradiction]. cbn [bind].
  pose proof (props_total data f start last vbr OK L V TS (fun v E => VB v OB (f_equal Ok E))) as PT. destruct (read_properties data (header_of f) start last vbr (lenN data)); cbn [bind]; try discriminate. contradiction.
Qed.

Example C170_example : mpeg_read no_inflate opts0 (repeat 255 100) = Err MNoFrame /\ mpeg_read no_inflate opts0 [] = Err MIo /\ mpeg_read no_inflate opts0 (repeat 1 100) = Err MNoFrame.
Proof. repeat split; vm_compute; reflexivity. Qed.

(** ** C171: the tags *)
Theorem C171_tags_partial : forall inflate o m x l v1t, mfile_ok inflate o m -> mx_frames m = x :: l -> v1_of o (mx_v1 m) v1t -> mo_tags o = true -> mo_props o = false -> exists f,
  mpeg_read inflate o (file_bytes m) = Ok f /\
  mf_id3v2 f = match mx_tags m with [] => None | t :: ts => Some (fold_left (fun a t => add_frames a (tg_parsed t)) ts (tg_parsed t)) end /\
  mf_id3v1 f = v1t /\ (mx_ape m = [] -> mf_ape f = None) /\
  (forall t, at_items t <> [] -> Forall item_ok (at_items t) -> NoDup (map (fun i => lower (ai_key i)) (at_items t)) -> ape_dump t = Ok (mx_ape m) ->
     mf_ape f = Some (mkApeTag false (filter (shown (fo_cover (mo_frames o))) (at_items t)))).
Proof.
  intros inflate o m x l v1t OK EF V1 T P. destruct (read_main inflate o m x l v1t OK EF V1) as (ape & A1 & A2 & E). cbv zeta in E. rewrite P, T in E.
  eexists. split; [exact E|]. cbn [mf_id3v2 mf_id3v1 mf_ape]. repeat split; auto.
Qed.
(** Reading the properties as well changes nothing about the tags. *)
Theorem C171_with_props_partial : forall inflate fo junk m x l v1t f, let o p := mkMO fo true p junk in
  mfile_ok inflate (o true) m -> mx_frames m = x :: l -> v1_of (o true) (mx_v1 m) v1t -> mpeg_read inflate (o true) (file_bytes m) = Ok f ->
  exists g, mpeg_read inflate (o false) (file_bytes m) = Ok g /\ mf_id3v2 g = mf_id3v2 f /\ mf_id3v1 g = mf_id3v1 f /\ mf_props g = mprops_default.
Proof.
  intros inflate fo junk m x l v1t f o OK EF V1 R. destruct (read_main inflate (o true) m x l v1t OK EF V1) as (ape & A1 & A2 & E). cbv zeta in E. cbn [mo_props mo_tags o] in E. rewrite R in E.
  assert (OK' : mfile_ok inflate (o false) m) by (destruct OK; constructor; auto). destruct (read_main inflate (o false) m x l v1t OK' EF V1) as (ape' & _ & _ & E'). cbv zeta in E'. cbn [mo_props mo_tags o] in E'.
  eexists. split; [exact E'|]. cbn [mf_id3v2 mf_id3v1 mf_props].
  destruct (read_exact 32 _) as [[b r]|]; [|discriminate]. destruct (vbr_read b); cbn [bind] in E; try discriminate E. destruct (read_properties _ _ _ _ _ _); cbn [bind] in E; try discriminate E. injection E as ->. repeat split.
Qed.
(** The footer of a second tag is taken for the start of what follows: the bytes "3DI" are junk, and the frames after it are still found, but a third tag is not. *)
Definition text_tag (flags : N) (name value : bytes) : bytes := hdr_bytes 4 0 flags (13) ++ name ++ [0; 0; 0; 3; 0; 0] ++ 3 :: value.
Definition foot_tag : bytes := $"3DI" ++ [4; 0; 0x10; 0; 0; 0; 13].
Definition three : bytes := text_tag 0x10 ($"TIT2") ($"ab") ++ foot_tag ++ text_tag 0x10 ($"TALB") ($"cd") ++ foot_tag ++ text_tag 0 ($"TPE1") ($"ef") ++ audio_of [frame0; frame0].
Definition names (f : mpeg_file) : option (list bytes) := option_map (fun t => map f_name (t_frames t)) (mf_id3v2 f).
Theorem C171_footer_refuted : exists f, mpeg_read no_inflate opts0 three = Ok f /\ names f = Some [$"TIT2"; $"TALB"].
Proof. eexists. split; vm_compute; reflexivity. Qed.
Definition two : bytes := text_tag 0x10 ($"TIT2") ($"ab") ++ foot_tag ++ text_tag 0 ($"TALB") ($"cd") ++ audio_of [frame0; frame0] ++ $"TAG" ++ repeat 65 125.
Example C171_example : exists f, mpeg_read no_inflate opts0 two = Ok f /\ names f = Some [$"TIT2"; $"TALB"] /\ mf_id3v1 f <> None /\ mf_ape f = None /\ p_duration (mf_props f) = 48.
Proof. eexists. split; [vm_compute; reflexivity|]. repeat split. discriminate. Qed.

(** ** C172: the properties do not depend on whether the tags are read *)
Theorem C172_independent_partial : forall inflate fo junk m x l v1t f, let o t := mkMO fo t true junk in
  mfile_ok inflate (o true) m -> mx_ape m = [] -> mx_frames m = x :: l -> v1_of (o true) (mx_v1 m) v1t -> mpeg_read inflate (o true) (file_bytes m) = Ok f ->
  mpeg_read inflate (o false) (file_bytes m) = Ok (mkMF None None None (mf_props f)).
Proof.
  intros inflate fo junk m x l v1t f o OK NA EF V1 R. destruct (read_main inflate (o true) m x l v1t OK EF V1) as (ape & _ & _ & E). cbv zeta in E. cbn [mo_props mo_tags o] in E. rewrite R in E.
  assert (OK' : mfile_ok inflate (o false) m) by (destruct OK; constructor; auto; intros; contradiction).
  destruct (read_main inflate (o false) m x l None OK' EF) as (ape' & A' & _ & E'). { right. reflexivity. } cbv zeta in E'. cbn [mo_props mo_tags o] in E'. rewrite (A' NA) in E'. rewrite E'.
  destruct (read_exact 32 _) as [[b r]|]; [|discriminate]. destruct (vbr_read b); cbn [bind] in E |- *; try discriminate E. destruct (read_properties _ _ _ _ _ _); cbn [bind] in E |- *; try discriminate E. injection E as ->. reflexivity.
Qed.
(** With an APE tag at the end the end of the audio is wrong by the size of the tag if the tags are not read. The frame inside it is the last one then. *)
Definition ape_bytes : bytes := match ape_dump (mkApeTag false [ape_text ($"Title") ($"abc")]) with Ok b => b | _ => [] end.
Definition ape_file : bytes := audio_of [frame0; frame0; frame0; frame0; frame0; frame0; frame0; frame0] ++ ape_bytes.
Definition duration_of (r : res mpeg_error mpeg_file) : option N := match r with Ok f => Some (p_duration (mf_props f)) | _ => None end.
Theorem C172_ape_refuted : duration_of (mpeg_read no_inflate opts0 ape_file) = Some 192 /\
  duration_of (mpeg_read no_inflate (mkMO (mo_frames opts0) false true 1024) ape_file) <> Some 192.
Proof. split; vm_compute; [reflexivity|discriminate]. Qed.
Example C172_example : duration_of (mpeg_read no_inflate opts0 two) = Some 48 /\ duration_of (mpeg_read no_inflate (mkMO (mo_frames opts0) false true 1024) two) = Some 48.
Proof. split; vm_compute; reflexivity. Qed.

(** ** C173: as FileProperties *)
Theorem C173_file_properties : forall p, let q := to_file_props p in
  fp_duration q = p_duration p /\ fp_overall q = Some (p_overall p) /\ fp_audio q = Some (p_audio p) /\ fp_rate q = Some (p_rate p) /\ fp_channels q = Some (p_channels p) /\ fp_depth q = None /\
  (forall bits, fp_mask q = Some bits -> bits = match p_mode p with SingleChannel => 4 | _ => 3 end /\ p_mode p <> DualChannel) /\ (fp_mask q = None -> p_mode p = DualChannel).
Proof. intros p q. unfold q, to_file_props. cbn. repeat split; auto. all: destruct (p_mode p); try discriminate; try (injection H as <-; auto); auto. Qed.
(** The number of channels agrees with the mask in what is read. *)
Theorem C173_channels : forall inflate o m x l v1t f, mfile_ok inflate o m -> mx_frames m = x :: l -> v1_of o (mx_v1 m) v1t -> mo_props o = true -> lenN (file_bytes m) < 2 ^ 59 -> bytes_ok (file_bytes m) ->
  mpeg_read inflate o (file_bytes m) = Ok f -> let q := to_file_props (mf_props f) in
  fp_channels q = Some (match fl_mode (fst x) with SingleChannel => 1 | _ => 2 end) /\ fp_rate q = Some (rate_of (fst x)) /\
  fp_mask q = match fl_mode (fst x) with SingleChannel => Some 4 | DualChannel => None | _ => Some 3 end.
Proof.
  intros inflate o m x l v1t f OK EF V1 P L OB R q. destruct (read_main inflate o m x l v1t OK EF V1) as (ape & A1 & A2 & E). cbv zeta in E. rewrite P, R in E.
  destruct (read_exact 32 _) as [[b r]|]; [|discriminate]. destruct (vbr_read b) as [v| |]; cbn [bind] in E; try discriminate E.
  destruct (read_properties _ _ _ _ _ _) as [pr| |] eqn:RP; cbn [bind] in E; try discriminate E. injection E as ->. unfold q. cbn [mf_props].
  assert (G : exists a b c, pr = make (fst x) a b c).
  { unfold read_properties in RP. cbv zeta in RP.
    repeat first [ injection RP as <-; do 3 eexists; reflexivity
      | match type of RP with bind ?e _ = _ => destruct e as [?| |]; cbn [bind] in RP; [|discriminate RP|discriminate RP] end
      | match type of RP with (if ?b then _ else _) = _ => destruct b end
      | match type of RP with match ?v with _ => _ end = _ => destruct v end ]. }
  destruct G as (d1 & d2 & d3 & ->). unfold to_file_props, make. cbn. repeat split.
Qed.
Example C173_example : option_map (fun f => let q := to_file_props (mf_props f) in (fp_channels q, fp_mask q, fp_rate q)) (match mpeg_read no_inflate opts0 two with Ok f => Some f | _ => None end) = Some (Some 1, Some 4, Some 24000).
Proof. vm_compute. reflexivity. Qed.

Print Assumptions C164_decode.
Print Assumptions C164_only.
Print Assumptions C165_length_partial.
Print Assumptions C165_length_refuted.
Print Assumptions C166_first_sync.
Print Assumptions C167_found_partial.
Print Assumptions C167_file_partial.
Print Assumptions C167_byte_before_refuted.
Print Assumptions C167_single_refuted.
Print Assumptions C167_end_refuted.
Print Assumptions C168_xing.
Print Assumptions C168_vbri_partial.
Print Assumptions C168_vbri_refuted.
Print Assumptions C169_cbr.
Print Assumptions C169_accuracy.
Print Assumptions C169_vbr_refuted.
Print Assumptions C169_short_refuted.
Print Assumptions C170_total.
Print Assumptions C171_tags_partial.
Print Assumptions C171_with_props_partial.
Print Assumptions C171_footer_refuted.
Print Assumptions C172_independent_partial.
Print Assumptions C172_ape_refuted.
Print Assumptions C173_file_properties.
Print Assumptions C173_channels.
