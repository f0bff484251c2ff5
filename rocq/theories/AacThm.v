(** Theorems about reading AAC (ADTS) files. *)
From Verif Require Import BaseLemmas StrLemmas Id3v2HeaderProof Id3v2HeaderThm ApeThm2 ApeProof2 TextProof MpegProof4 MpegProof5 FrameTotalThm Id3v1Thm.
From Verif Require Import Id3v1Model ApeModel FrameReadModel Id3v2HeaderModel.
From Verif Require Import AacProof4.

(** ** C176: the header *)
Theorem C176_decode_partial : forall f len rest, avalid f -> len < 2 ^ 13 -> exists h, adts_read (be_enc 7 (aword f len) ++ rest) = Ok h /\
  a_version h = (if x_v2 f then AV2 else AV4) /\ a_type h = atype f /\ a_rate h = arate f /\ a_original h = x_original f /\ a_len h = len /\ a_crc h = x_crc f /\
  a_channels h = x_config f /\ (x_config f < 7 -> a_channels h = channel_count (x_config f)) /\
  (x_config f <> 0 -> x_config f <> 4 -> mp4_mask (a_channels h) = Some (speakers (x_config f))) /\ (x_config f = 0 -> mp4_mask (a_channels h) = None).
Proof.
  intros f len rest V L. exists (header_of_frame f len). split; [now apply decoded|]. unfold header_of_frame. cbn [a_version a_type a_rate a_original a_len a_crc a_channels].
  do 7 (split; [reflexivity|]). destruct V as (_ & _ & C & _).
  assert (X : In (x_config f) [0; 1; 2; 3; 4; 5; 6; 7]). { cbn [In]. lia. } clear - X. revert X. generalize (x_config f). intros c X. repeat destruct X as [<- | X]; try contradiction; (split; [first [intros; lia|reflexivity]|]); (split; [|first [reflexivity|discriminate]]); intros; try reflexivity; lia.
Qed.
(** The sample rate index 15 is refused. *)
Theorem C176_index : forall b0 b1 b2 b3 b4 b5 b6 rest, adts_read (b0 :: b1 :: b2 :: b3 :: b4 :: b5 :: b6 :: rest) = Err AcIndex <-> N.land (N.shiftr b2 2) 15 = 15.
Proof.
  intros. unfold adts_read. pose proof (read_exact_app 7 [b0; b1; b2; b3; b4; b5; b6] rest eq_refl) as R. cbn [app] in R. rewrite R. cbv zeta. cbn [nth].
  destruct (N.eqb_spec (N.land (N.shiftr b2 2) 15) 15) as [->|E]; split; auto; try discriminate. contradiction.
Qed.
Definition akind0 : afields := mkAx false false 1 4 false 2 false false false false 0x7FF 0.
(** What is reported as copyright is the home bit. *)
Theorem C176_copyright_refuted : forall f len rest, avalid f -> len < 2 ^ 13 -> exists h, adts_read (be_enc 7 (aword f len) ++ rest) = Ok h /\ a_copyright h = x_home f.
Proof. intros f len rest V L. exists (header_of_frame f len). split; [now apply decoded|]. reflexivity. Qed.
(** Configuration 7 has eight channels; 4 has a centre at the back. *)
Theorem C176_channels_refuted : forall f len rest, avalid f -> len < 2 ^ 13 -> exists h, adts_read (be_enc 7 (aword f len) ++ rest) = Ok h /\
  (x_config f = 7 -> a_channels h = 7 /\ channel_count 7 = 8) /\ (x_config f = 4 -> mp4_mask (a_channels h) = Some 0x33 /\ speakers 4 = 0x107).
Proof. intros f len rest V L. exists (header_of_frame f len). split; [now apply decoded|]. unfold header_of_frame. cbn [a_channels]. split; intros ->; split; reflexivity. Qed.
(** A header of MPEG layer III is taken as well: neither the twelfth bit of the sync nor the layer is looked at. *)
Theorem C176_layer_refuted : exists h, adts_read [0xFF; 0xFB; 0x90; 0x64; 0; 0; 0] = Ok h /\ search_for_frame_sync [0xFF; 0xE3; 0x90; 0x64; 0; 0; 0] = Some 0 /\ a_rate h = 44100.
Proof. eexists. repeat split. Qed.
Example C176_example : exists h, adts_read (be_enc 7 (aword akind0 200)) = Ok h /\ a_version h = AV4 /\ a_type h = AacLowComplexity /\ a_rate h = 44100 /\ a_channels h = 2 /\ a_len h = 200 /\ a_crc h = false /\
  be_enc 7 (aword akind0 200) = [0xFF; 0xF1; 0x50; 0x80; 0x19; 0x1F; 0xFC].
Proof. eexists. split; [vm_compute; reflexivity|]. repeat split; vm_compute; reflexivity. Qed.

(** ** C177: the first frame *)
(** In a file of zeros, ID3v2 tags, junk, at least two frames of one kind, and an end without a sync, the properties are those of the first frame. *)
Theorem C177_found_partial : forall inflate rounds o m x l v1t, afile_ok inflate o m -> ax_frames m = x :: l -> v1_of o (ax_v1 m) v1t -> lenN (afile_bytes m) < 2 ^ 32 -> (length l <= rounds)%nat ->
  mo_props o = true -> 1024 * 1024 + 8 * 1024 <= 8 * alength x * arate (fst x) -> exists f p, aac_read inflate rounds o (afile_bytes m) = Ok f /\ af_props f = Some p /\
  ap_version p = (if x_v2 (fst x) then AV2 else AV4) /\ ap_type p = atype (fst x) /\ ap_rate p = arate (fst x) /\ ap_channels p = x_config (fst x) /\ ap_original p = x_original (fst x) /\
  ap_mask p = mp4_mask (x_config (fst x)).
Proof.
  intros inflate rounds o m x l v1t OK EF V1 L R P B.
  assert (Z : exists l' z, l = l' ++ [z]). { pose proof (aok_stream _ _ _ OK) as S. rewrite EF in S. destruct l as [|y l]; [contradiction|]. destruct (exists_last (l := y :: l)) as (l' & z & E); [discriminate|]. eauto. }
  destruct Z as (l' & z & ->). rewrite app_length in R. cbn [length] in R. rewrite (aac_main inflate rounds o m x l' z v1t OK EF V1 L) by lia. rewrite P.
  assert (C : code_rate x <> 0). { unfold code_rate. intros Z. apply N.div_small_iff in Z; [|discriminate]. pose proof (N.div_mod (alength x * arate (fst x)) 1024 ltac:(discriminate)). pose proof (N.mod_lt (alength x * arate (fst x)) 1024 ltac:(discriminate)). lia. }
  destruct (N.eqb_spec (code_rate x) 0); [contradiction|]. unfold aac_properties. set (br := _ / _).
  assert (SB : ax_stream m <= lenN (afile_bytes m)). { unfold ax_stream, afile_bytes, ax_before. rewrite !lenN_app, lenN_repeat. assert (10 * lenN (ax_tags m) <= lenN (front_of (ax_foot m) (ax_tags m))).
    { destruct (ax_tags m) as [|t ts]; cbn [front_of]; [cbv; discriminate|]. rewrite !lenN_app, tags_len, vtag_len, lenN_cons. lia. } lia. }
  destruct (0 <? br); [|eexists _, _; cbn [bind]; split; [reflexivity|]; repeat split].
  change U64_MAX with 18446744073709551615. change (2 ^ 32) with 4294967296 in L. replace (18446744073709551615 <? ax_stream m * 8) with false by (symmetry; apply N.ltb_ge; lia).
  eexists _, _. cbn [bind]. split; [reflexivity|]. repeat split.
Qed.
Definition raw (n : nat) : afields * bytes := (akind0, repeat 1 n).
Definition opts1 : mopts := mkMO (mkFO Relaxed true false) true true 1024.
Definition no_inflate (b : bytes) : option bytes := None.
Lemma raw_ok : forall n, N.of_nat n < 8000 -> aframe_ok (raw n).
Proof.
  intros n L. split; [|split; [|split]].
  - repeat split.
  - unfold alength, raw. cbn [snd]. rewrite lenN_repeat. change (2 ^ 13) with 8192. lia.
  - discriminate.
  - apply Forall_forall. intros b I. apply repeat_spec in I. subst. reflexivity.
Qed.
Definition audio3 : bytes := astream [raw 193; raw 193; raw 193].
(** One frame alone is not found. *)
Theorem C177_single_refuted : aframe_ok (raw 193) /\ (forall rounds, aac_read no_inflate rounds opts1 (astream [raw 193]) = Err AcFrame).
Proof. split; [now apply raw_ok|]. intros. reflexivity. Qed.
(** Bytes before the first frame that look like a header with a wrong sample rate make the file unreadable. *)
Theorem C177_junk_refuted : forall rounds, aac_read no_inflate rounds opts1 ([1; 0xFF; 0xFE; 0x3C; 0; 0; 0] ++ audio3) = Err AcIndex.
Proof. intros. reflexivity. Qed.
(** So does a sync within the last six bytes, as in an ID3v1 tag with no genre after a comment that ends with that byte. *)
Definition v1_end : bytes := $"TAG" ++ repeat 65 123 ++ [255; 255].
Theorem C177_end_refuted : aac_read no_inflate 9 opts1 (audio3 ++ v1_end) = Err AcIo /\ match aac_read no_inflate 9 opts1 (audio3 ++ $"TAG" ++ repeat 65 124 ++ [255]) with Ok _ => True | _ => False end.
Proof. split; vm_compute; auto. Qed.
(** Small frames have the bit rate 0. *)
Theorem C177_small_refuted : exists l, astream_ok l /\ forall rounds, aac_read no_inflate rounds opts1 (astream l) = Err AcBitrate.
Proof.
  exists [(mkAx false true 1 11 false 1 false false false false 0 0, repeat 1 9); (mkAx false true 1 11 false 1 false false false false 0 0, repeat 1 9)]. split.
  - repeat constructor; vm_compute; try reflexivity; discriminate.
  - intros. reflexivity.
Qed.
Lemma audio3_ok : astream_ok [raw 193; raw 193; raw 193].
Proof. repeat constructor; try (apply raw_ok; reflexivity). Qed.
Example C177_example : exists f p, aac_read no_inflate 9 opts1 ([0; 0; 0] ++ hdr_bytes 4 0 0 13 ++ $"TIT2" ++ [0; 0; 0; 3; 0; 0] ++ 3 :: $"ab" ++ [7; 7] ++ audio3) = Ok f /\ af_props f = Some p /\ ap_rate p = 44100 /\ ap_channels p = 2 /\ ap_mask p = Some 3.
Proof. eexists _, _. split; [vm_compute; reflexivity|]. repeat split. Qed.

(** ** C178: the duration *)
(** The bit rate is the mean of those of all frames but the last, in units of 1024 bits; the stream is all of the file but the contents of the ID3v2 tags, the footer and the ID3v1 tag. *)
Theorem C178_formula_partial : forall inflate rounds o m x l z v1t f p, afile_ok inflate o m -> ax_frames m = x :: l ++ [z] -> v1_of o (ax_v1 m) v1t -> lenN (afile_bytes m) < 2 ^ 32 -> (length l < rounds)%nat ->
  mo_props o = true -> aac_read inflate rounds o (afile_bytes m) = Ok f -> af_props f = Some p ->
  let mean := fold_right (fun z s => alength z * arate (fst z) / 1024 * 8 / 1024 + s) 0 (x :: l) / lenN (x :: l) in
  ap_audio p = mean /\ ap_overall p = mean /\
  ap_duration p = 8 * (N.of_nat (ax_zeros m) + 10 * lenN (ax_tags m) + lenN (ax_junk m ++ astream (ax_frames m) ++ ax_post m)) / mean.
Proof.
  intros inflate rounds o m x l z v1t f p OK EF V1 L R P E EP mean. rewrite (aac_main inflate rounds o m x l z v1t OK EF V1 L R), P in E. destruct (code_rate x =? 0); [discriminate|].
  assert (M : sumN (map code_rate (x :: l)) / lenN (x :: l) = mean). { unfold mean. f_equal. unfold sumN. generalize (x :: l). clear. induction l as [|a l IH]; [reflexivity|]. cbn [map fold_right]. rewrite IH. reflexivity. }
  rewrite M in E. unfold aac_properties in E. assert (SB : N.of_nat (ax_zeros m) + 10 * lenN (ax_tags m) + lenN (ax_junk m ++ astream (ax_frames m) ++ ax_post m) = ax_stream m) by (unfold ax_stream; rewrite !lenN_app; lia). rewrite SB.
  destruct (N.ltb_spec 0 mean) as [G|G].
  - destruct (U64_MAX <? ax_stream m * 8); [discriminate|]. injection E as <-. cbn [af_props] in EP. injection EP as <-. cbn [ap_audio ap_overall ap_duration]. repeat split. now rewrite N.mul_comm.
  - injection E as <-. cbn [af_props] in EP. injection EP as <-. cbn [ap_audio ap_overall ap_duration]. assert (mean = 0) as -> by lia. repeat split. symmetry. now destruct (8 * ax_stream m).
Qed.
Lemma kind_rate : forall f g, avalid f -> avalid g -> akind f g -> arate f = arate g.
Proof. intros f g F G K. pose proof (kind_fields f F) as HF. pose proof (kind_fields g G) as HG. cbv zeta in HF, HG. unfold akind in K. rewrite K in HF. destruct HF as (_ & _ & _ & HF & _). destruct HG as (_ & _ & _ & HG & _). unfold arate. now rewrite <- HF, HG. Qed.
Lemma same_rates : forall c l, Forall (fun z => code_rate z = c) l -> sumN (map code_rate l) = lenN l * c.
Proof. intros c. induction l as [|x l IH]; intros F; [reflexivity|]. apply Forall_cons_iff in F as [<- F]. cbn [map sumN fold_right]. fold (sumN (map code_rate l)). rewrite IH by auto. rewrite lenN_cons. lia. Qed.
Lemma same_lengths : forall k l, Forall (fun z => alength z = k) l -> lenN (astream l) = lenN l * k.
Proof. intros k. induction l as [|x l IH]; intros F; [reflexivity|]. apply Forall_cons_iff in F as [<- F]. unfold astream. cbn [flat_map]. rewrite lenN_app, aframe_len. fold (astream l). rewrite IH by auto. rewrite lenN_cons. lia. Qed.
(** The duration of a file of frames of one size, which last 1024 samples each, is at least 1.024 times too long (but for a millisecond). *)
Theorem C178_long_refuted : forall inflate rounds o l x f p, astream_ok l -> hd_error l = Some x -> Forall (fun z => alength z = alength x) l -> file_end (astream l) [] -> lenN (astream l) < 2 ^ 32 -> (length l <= rounds)%nat ->
  mo_props o = true -> mo_tags o = true -> 1024 * 1024 + 8 * 1024 <= 8 * alength x * arate (fst x) -> aac_read inflate rounds o (astream l) = Ok f -> af_props f = Some p ->
  1024 * (1000 * 1024 * lenN l) < (ap_duration p + 1) * 1000 * arate (fst x).
Proof.
  intros inflate rounds o l x f p S HX FL FE L R P T B E EP. destruct l as [|x' [|y r]]; try contradiction. injection HX as ->.
  destruct (exists_last (l := y :: r)) as (l' & z & EL); [discriminate|]. set (m := mkAFile 0 [] [] [] (x :: y :: r) [] []).
  assert (OK : afile_ok inflate o m).
  { constructor; cbn [m ax_tags ax_foot ax_junk ax_frames ax_post ax_v1]; auto.
    - reflexivity.
    - repeat split; auto; try discriminate. apply silent_nil.
    - split; [constructor|]. intros q (b & t & D & _). unfold dropN in D. rewrite skipn_nil in D. discriminate.
    - unfold afile_bytes, ax_before. cbn [m ax_zeros ax_foot ax_tags ax_junk ax_frames ax_post ax_v1 repeat front_of app]. now rewrite app_nil_r. }
  assert (EB : afile_bytes m = astream (x :: y :: r)). { unfold afile_bytes, ax_before. cbn [m ax_zeros ax_foot ax_tags ax_junk ax_frames ax_post ax_v1 repeat front_of app]. now rewrite app_nil_r. }
  rewrite <- EB in E, L. assert (LL : (length (y :: r) = length l' + 1)%nat) by (rewrite EL, app_length; reflexivity).
  destruct (C178_formula_partial inflate rounds o m x l' z None f p OK) as (_ & _ & D); auto.
  - cbn [m ax_frames]. now rewrite <- EL.
  - cbn. auto.
  - cbn [length] in R, LL. lia.
  - rewrite D. clear D E EP. cbn [m ax_zeros ax_tags ax_junk ax_frames ax_post]. cbn [app]. rewrite app_nil_r. rewrite (same_lengths (alength x)) by auto. change (lenN []) with 0. change (N.of_nat 0) with 0.
    assert (FS : Forall (fun q => code_rate q = code_rate x) (x :: l')).
    { unfold astream_ok in S. assert (X : Forall (fun q => code_rate q = code_rate x) (x :: y :: r)).
      { rewrite Forall_forall in S, FL |- *. intros q I. destruct (S q I) as ((V & _) & K). destruct (S x (or_introl eq_refl)) as ((VX & _) & _). unfold code_rate. rewrite (FL q I), (kind_rate (fst q) (fst x)); auto. }
      rewrite EL in X. rewrite app_comm_cons in X. now apply Forall_app in X as [X _]. }
    pose proof (same_rates (code_rate x) (x :: l') FS) as SR.
    assert (M : fold_right (fun z s => alength z * arate (fst z) / 1024 * 8 / 1024 + s) 0 (x :: l') / lenN (x :: l') = code_rate x).
    { replace (fold_right (fun z s => alength z * arate (fst z) / 1024 * 8 / 1024 + s) 0 (x :: l')) with (sumN (map code_rate (x :: l'))).
      2:{ unfold sumN. generalize (x :: l'). clear. induction l as [|a l IH]; [reflexivity|]. cbn [map fold_right]. rewrite IH. reflexivity. }
      rewrite SR, N.mul_comm. apply N.div_mul. rewrite lenN_cons. lia. }
    rewrite M. set (n := lenN (x :: y :: r)). set (k := alength x) in *. set (rt := arate (fst x)) in *.
    assert (C0 : 0 < code_rate x). { unfold code_rate. fold k rt. pose proof (N.div_mod (k * rt) 1024 ltac:(discriminate)). pose proof (N.mod_lt (k * rt) 1024 ltac:(discriminate)). apply N.div_str_pos. lia. }
    assert (C1 : code_rate x * (1024 * 1024) <= 8 * k * rt). { unfold code_rate. fold k rt. pose proof (N.mul_div_le (k * rt) 1024 ltac:(discriminate)). pose proof (N.mul_div_le (k * rt / 1024 * 8) 1024 ltac:(discriminate)). lia. }
    set (c := code_rate x) in *. pose proof (N.mul_succ_div_gt (8 * (0 + 10 * 0 + n * k)) c ltac:(lia)) as G. set (d := 8 * (0 + 10 * 0 + n * k) / c) in *.
    assert (k <> 0) by (unfold k, alength; lia).
    assert (G2 : 8 * n * k * (1024 * 1024) < N.succ d * (8 * k * rt)). { eapply N.lt_le_trans with (c * N.succ d * (1024 * 1024)). - lia. - replace (c * N.succ d * (1024 * 1024)) with (N.succ d * (c * (1024 * 1024))) by lia. now apply N.mul_le_mono_l. }
    assert (G3 : n * (1024 * 1024) < N.succ d * rt). { apply (N.mul_lt_mono_pos_l (8 * k)); [lia|]. lia. }
    lia.
Qed.
(** The bit rates of a file of frames of one size are those of the frames up to the unit and two. *)
Theorem C178_bitrate : forall x, 1024 * 1024 * code_rate x <= 8 * alength x * arate (fst x) < 1024 * 1024 * (code_rate x + 1) + 8 * 1024.
Proof.
  intros x. unfold code_rate. set (a := alength x * arate (fst x)). pose proof (N.div_mod a 1024 ltac:(discriminate)). pose proof (N.mod_lt a 1024 ltac:(discriminate)).
  pose proof (N.div_mod (a / 1024 * 8) 1024 ltac:(discriminate)). pose proof (N.mod_lt (a / 1024 * 8) 1024 ltac:(discriminate)). lia.
Qed.
Example C178_example : exists f p, aac_read no_inflate 99 opts1 (astream (repeat (raw 193) 20)) = Ok f /\ af_props f = Some p /\ ap_duration p = 477 /\ ap_audio p = 67 /\ 20 * 1024 * 1000 / 44100 = 464 /\ 200 * 8 * 44100 / 1024 / 1000 = 68.
Proof. eexists _, _. split; [vm_compute; reflexivity|]. repeat split; vm_compute; reflexivity. Qed.

(** ** C179: reading ends and does not panic *)
Theorem C179_total_partial : forall inflate o data rounds, (forall b c, inflate b = Some c -> lenN c <= lenN b) -> bytes_ok data -> lenN data < 2 ^ 32 -> (forall p, ~ empty_frame data p) ->
  (length data < rounds)%nat -> aac_read inflate rounds o data <> Panic.
Proof. intros inflate o data rounds I. now apply aac_total. Qed.
(** Two headers in a row that say that their frames are empty: the reader stays where it is, whatever the number of rounds. *)
Definition stuck : bytes := aframe (raw 193) ++ be_enc 7 (aword akind0 0) ++ be_enc 7 (aword akind0 0).
Theorem C179_stuck_refuted : lenN stuck = 214 /\ bytes_ok stuck /\ (exists h, find_next stuck 200 = Ok (Some (h, 200))) /\ forall rounds, aac_read no_inflate rounds opts1 stuck = Panic.
Proof.
  split; [reflexivity|]. split. { apply Forall_app. split; [apply aframe_bytes_ok, raw_ok; reflexivity|]. apply Forall_app. split; apply be_enc_ok. }
  assert (F : exists h, find_next stuck 200 = Ok (Some (h, 200)) /\ a_bitrate h = 0). { eexists. split; vm_compute; reflexivity. } destruct F as (h & F & B). split; [eauto|].
  assert (C : forall rounds sum count, count_frames rounds stuck 200 sum count = Panic). { induction rounds as [|rounds IH]; intros; [reflexivity|]. cbn [count_frames]. rewrite F. cbn [bind]. destruct (_ || _); auto. }
  intros rounds. unfold aac_read.
  assert (E : match skip_zeros stuck 0 with Some pos => aac_lead no_inflate (S (length stuck)) stuck opts1 None (lenN stuck) pos | None => Panic end = Ok (None, Some (header_of_frame akind0 200, 200), 214)) by (vm_compute; reflexivity).
  destruct (skip_zeros stuck 0) as [pos|]; [|discriminate E]. rewrite E. cbn [bind]. assert (V : find_id3v1 stuck = (214, false)) by (vm_compute; reflexivity). rewrite V. cbn [andb bind]. change (mo_props opts1) with true. cbv iota.
  change (a_rate (header_of_frame akind0 200)) with 44100. change (a_bitrate (header_of_frame akind0 200)) with 67. change ((44100 =? 0) && mo_strict opts1) with false. change (67 =? 0) with false. cbv iota. rewrite C. reflexivity.
Qed.
Example C179_example : (forall rounds, aac_read no_inflate rounds opts1 [] = Err AcIo) /\ (forall rounds, aac_read no_inflate rounds opts1 (repeat 1 50) = Err AcFrame) /\ aac_read no_inflate 300 opts1 (repeat 255 200) = Err AcIndex.
Proof. repeat split. Qed.

(** ** C180: the tags *)
Theorem C180_tags_partial : forall inflate rounds o m x l v1t, afile_ok inflate o m -> ax_frames m = x :: l -> v1_of o (ax_v1 m) v1t -> lenN (afile_bytes m) < 2 ^ 32 -> (length l <= rounds)%nat ->
  (mo_props o = true -> 1024 * 1024 + 8 * 1024 <= 8 * alength x * arate (fst x)) -> exists f, aac_read inflate rounds o (afile_bytes m) = Ok f /\
  af_id3v2 f = match ax_tags m with [] => None | t :: ts => Some (fold_left (fun a t => add_frames a (tg_parsed t)) ts (tg_parsed t)) end /\ af_id3v1 f = v1t.
Proof.
  intros inflate rounds o m x l v1t OK EF V1 L R B.
  assert (Z : exists l' z, l = l' ++ [z]). { pose proof (aok_stream _ _ _ OK) as S. rewrite EF in S. destruct l as [|y l]; [contradiction|]. destruct (exists_last (l := y :: l)) as (l' & z & E); [discriminate|]. eauto. }
  destruct Z as (l' & z & ->). assert (R' : (length l' < rounds)%nat) by (rewrite app_length in R; cbn [length] in R; lia). pose proof (aac_main inflate rounds o m x l' z v1t OK EF V1 L R') as M.
  destruct (mo_props o) eqn:P.
  - destruct (C177_found_partial inflate rounds o m x (l' ++ [z]) v1t OK EF V1 L R P (B eq_refl)) as (f & p & E & _). exists f. split; [exact E|]. rewrite E in M. destruct (code_rate x =? 0); [discriminate|].
    destruct (aac_properties _ _ _); cbn [bind] in M; try discriminate. injection M as ->. split; reflexivity.
  - rewrite M. eexists. repeat split.
Qed.
(** The properties of a file that does not begin with an ID3v2 tag do not depend on whether its tags are read. *)
Theorem C180_independent_partial : forall inflate rounds fo junk data f, let o t := mkMO fo t true junk in
  (forall n, takeN 3 (dropN n data) = $"ID3" -> exists k, k < n /\ nth (N.to_nat k) data 0 <> 0) -> aac_read inflate rounds (o true) data = Ok f ->
  aac_read inflate rounds (o false) data = Ok (mkAF None None (af_props f)).
Proof.
  intros inflate rounds fo junk data f o NI E. unfold aac_read in *. destruct (skip_zeros data 0) as [pos|] eqn:SZ; [|discriminate].
  assert (Z : forall d k pos, skip_zeros d k = Some pos -> k <= pos /\ forall i, k + i < pos -> nth (N.to_nat i) d 0 = 0).
  { clear. induction d as [|b d IH]; intros k pos H; cbn [skip_zeros] in H; [discriminate|]. destruct (N.eqb_spec b 0) as [->|].
    - apply IH in H as [H1 H2]. split; [lia|]. intros i I. destruct (N.eq_dec i 0) as [->|J]; [reflexivity|]. replace (N.to_nat i) with (S (N.to_nat (i - 1))) by lia. cbn [nth]. apply H2. lia.
    - injection H as <-. split; [lia|]. intros i I. lia. }
  apply Z in SZ as [_ SZ].
  assert (LE : forall t, aac_lead inflate (S (length data)) data (o t) None (lenN data) pos =
    match read_exact 4 (dropN pos data) with None => Ok (None, None, lenN data) | Some _ => let? f := find_next data pos in Ok (None, f, lenN data) end).
  { intros t. cbn [aac_lead]. destruct (read_exact 4 (dropN pos data)) as [[four r]|] eqn:RE; [|reflexivity]. replace (list_eqb (takeN 3 four) ($"ID3")) with false; [reflexivity|].
    symmetry. apply list_eqb_neq. intros X. destruct (NI pos) as (k & K & NZ). 2:{ apply NZ, SZ. lia. } apply read_exact_spec in RE as [RE RL]. rewrite RE. rewrite takeN_app_le by lia. exact X. }
  rewrite LE in E |- *. destruct (match read_exact 4 (dropN pos data) with None => _ | Some _ => _ end) as [[[v2 first] sl]| |] eqn:X; try discriminate. assert (v2 = None) as ->.
  { destruct (read_exact 4 (dropN pos data)); [destruct (find_next data pos); cbn [bind] in X; congruence|congruence]. }
  cbn [bind] in *. destruct (find_id3v1 data) as [p1 found]. cbn [mo_tags mo_props o] in *. rewrite andb_false_r. cbn [bind].
  destruct (if found && true then _ else _) as [v1| |]; cbn [bind] in E; try discriminate E. destruct (if found then _ else _) as [n| |]; cbn [bind] in *; try discriminate E. change (mo_strict (mkMO fo false true junk)) with (mo_strict (mkMO fo true true junk)).
  destruct first as [[h e]|]; [|discriminate E]. destruct (_ && _); [discriminate E|]. destruct (a_bitrate h =? 0); [discriminate E|]. destruct (count_frames _ _ _ _ _) as [[s c]| |]; cbn [bind] in *; try discriminate E.
  destruct (aac_properties _ _ _); cbn [bind] in *; try discriminate E. injection E as <-. reflexivity.
Qed.
(** When tags are not read an ID3v2 tag is not skipped: a UTF-16 title that begins with "<" makes the file unreadable, and frames inside the tag are taken for the audio. *)
Definition utf16_tag : bytes := hdr_bytes 3 0 0 17 ++ $"TIT2" ++ [0; 0; 0; 7; 0; 0] ++ [1; 0xFF; 0xFE; 0x3C; 0; 0x33; 0].
Theorem C180_title_refuted : (forall rounds, aac_read no_inflate rounds (mkMO (mkFO Relaxed true false) false true 1024) (utf16_tag ++ audio3) = Err AcIndex) /\
  exists f t, aac_read no_inflate 9 opts1 (utf16_tag ++ audio3) = Ok f /\ af_id3v2 f = Some t /\ fl_get_text (Valid ($"TIT2")) (t_frames t) = Some ($"<3").
Proof. split; [intros; reflexivity|]. eexists _, _. split; [vm_compute; reflexivity|]. split; reflexivity. Qed.
Definition hidden_tag : bytes := let d := astream [(mkAx true false 1 4 false 1 false false false false 0 0, repeat 1 20); (mkAx true false 1 4 false 1 false false false false 0 0, repeat 1 20)] in
  hdr_bytes 3 0 0 69 ++ $"PRIV" ++ [0; 0; 0; 56; 0; 0] ++ [65; 0] ++ d.
Theorem C180_frames_refuted : exists f g p q, aac_read no_inflate 9 opts1 (hidden_tag ++ audio3) = Ok f /\ aac_read no_inflate 9 (mkMO (mkFO Relaxed true false) false true 1024) (hidden_tag ++ audio3) = Ok g /\
  af_props f = Some p /\ af_props g = Some q /\ ap_channels p = 2 /\ ap_channels q = 1 /\ ap_version p = AV4 /\ ap_version q = AV2.
Proof. eexists _, _, _, _. split; [vm_compute; reflexivity|]. split; [vm_compute; reflexivity|]. repeat split. Qed.
(** The footer of a second tag is not skipped, so that a third tag is lost. *)
Definition text_tag (flags : N) (name value : bytes) : bytes := hdr_bytes 4 0 flags 13 ++ name ++ [0; 0; 0; 3; 0; 0] ++ 3 :: value.
Definition foot_tag : bytes := $"3DI" ++ [4; 0; 0x10; 0; 0; 0; 13].
Theorem C180_footer_refuted : exists f t, aac_read no_inflate 9 opts1 (text_tag 0x10 ($"TIT2") ($"ab") ++ foot_tag ++ text_tag 0x10 ($"TALB") ($"cd") ++ foot_tag ++ text_tag 0 ($"TPE1") ($"ef") ++ audio3) = Ok f /\
  af_id3v2 f = Some t /\ map f_name (t_frames t) = [$"TIT2"; $"TALB"].
Proof. eexists _, _. split; [vm_compute; reflexivity|]. split; reflexivity. Qed.
Example C180_example : exists f t, aac_read no_inflate 9 opts1 (text_tag 0x10 ($"TIT2") ($"ab") ++ foot_tag ++ text_tag 0 ($"TALB") ($"cd") ++ audio3 ++ $"TAG" ++ repeat 65 125) = Ok f /\
  af_id3v2 f = Some t /\ map f_name (t_frames t) = [$"TIT2"; $"TALB"] /\ af_id3v1 f <> None.
Proof. eexists _, _. split; [vm_compute; reflexivity|]. repeat split. discriminate. Qed.

Print Assumptions C176_decode_partial. Print Assumptions C177_found_partial. Print Assumptions C178_formula_partial. Print Assumptions C178_long_refuted. Print Assumptions C179_total_partial. Print Assumptions C179_stuck_refuted.
Print Assumptions C180_tags_partial. Print Assumptions C180_independent_partial.
