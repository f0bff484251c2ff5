(** Properties of WAV files in the extensible format and of compressed ones (C234). *)
From Verif Require Import BaseLemmas StrLemmas TextProof MathModel IffModel IffSpec IffProof IffProof2 IffProof3 IffProof4 IffProof5 AiffModel AiffProof AiffProof2 AiffProof3 AiffThm.

(** Milliseconds, and kilobits for each second. *)
Definition length_ms (samples rate : N) : N := nearest (samples * 1000) rate.
Definition per_second (size ms : N) : N := if ms =? 0 then 0 else nearest (size * 8) ms mod 2 ^ 32.
Definition audio_rate (byterate stream ms : N) : N := if nearest (byterate * 8) 1000 =? 0 then per_second stream ms else nearest (byterate * 8) 1000.
Definition format_name (tag : N) : wav_format := if tag =? 1 then WPcm else if tag =? 3 then WFloat else WOther tag.

Lemma small : forall n, n < 2 ^ 32 -> n mod 2 ^ 32 = n. Proof. intros. now apply N.mod_small. Qed.
Lemma nearest_le : forall a b, 1 <= b -> nearest a b <= a + 1.
Proof.
  intros a b B. unfold nearest. apply N.div_le_upper_bound; [lia|]. assert (b / 2 <= b) by (apply N.div_le_upper_bound; lia). nia.
Qed.
Lemma core : forall b f total stream file n, 16 <= lenN b -> 1 <= stream < 2 ^ 32 -> read_fmt b = Ok f -> 1 <= m_channels f -> m_bits f mod 8 = 0 ->
  (m_tag f = 1 \/ m_tag f = 3 \/ total <> 0) ->
  n = (if (0 <? m_bits f) && ((total =? 0) || ((m_tag f =? 1) || (m_tag f =? 3))) then stream / (m_channels f * (m_bits f / 8)) else total) ->
  1 <= m_rate f < 2 ^ 32 -> 1 <= n < 2 ^ 32 -> m_byterate f < 2 ^ 32 -> file < 2 ^ 60 ->
  let ms := length_ms n (m_rate f) in
  let by_bits := if 0 <? m_bits f then as_u8 (m_bits f) else as_u8 (N.min (m_align f / m_channels f * 8) U16_MAX) in
  wav_properties b total stream file =
  Ok (mkWp (format_name (m_tag f)) ms (per_second file ms) (audio_rate (m_byterate f) stream ms) (m_rate f)
        (match m_ext f with Some (v, _) => if 0 <? v then as_u8 v else by_bits | None => by_bits end) (m_channels f)
        (match m_ext f with Some (_, mask) => Some mask | None => None end)).
Proof.
  intros b f total stream file n L ST RF CH BM PC EN RA NN BR FI ms by_bits. unfold wav_properties.
  destruct (N.ltb_spec (lenN b) 16); [lia|]. destruct (N.eqb_spec stream 0); [lia|]. rewrite RF. cbn [bind].
  destruct (N.eqb_spec (m_channels f) 0); [lia|]. rewrite BM. change (0 =? 0) with true. cbn [negb].
  assert (Q : negb ((m_tag f =? 1) || (m_tag f =? 3)) && (total =? 0) = false).
  { destruct PC as [-> |[-> |PC]]; [reflexivity|reflexivity|]. destruct (N.eqb_spec total 0); [contradiction|]. apply andb_false_r. }
  rewrite Q. rewrite <- EN.
  assert (AU : (if 0 <? m_byterate f then let? x := div64r (m_byterate f * 8) 1000 in Ok (as_u32 x) else Ok 0) = Ok (nearest (m_byterate f * 8) 1000) :> res iff_error N).
  { destruct (N.ltb_spec 0 (m_byterate f)) as [Z|Z].
    - rewrite div64r_ok by (try reflexivity; change (2 ^ 64) with 18446744073709551616; change (2 ^ 32) with 4294967296 in *; lia). cbn [bind]. fold (nearest (m_byterate f * 8) 1000).
      unfold as_u32. rewrite small; [reflexivity|]. unfold nearest. apply N.div_lt_upper_bound; [lia|]. change (1000 / 2) with 500. change (2 ^ 32) with 4294967296 in *. lia.
    - assert (m_byterate f = 0) as -> by lia. reflexivity. }
  rewrite AU. cbn [bind].
  destruct (N.ltb_spec 0 (m_rate f)); [|lia]. destruct (N.ltb_spec 0 n); [|lia]. cbn [andb].
  change (2 ^ 32) with 4294967296 in RA, NN, BR, ST. change (2 ^ 60) with 1152921504606846976 in FI.
  rewrite div64r_ok by (try lia; change (2 ^ 64) with 18446744073709551616; lia). cbn [bind]. fold (nearest (n * 1000) (m_rate f)). fold (length_ms n (m_rate f)). fold ms.
  assert (MB : ms <= n * 1000 + 1) by (apply nearest_le; lia).
  unfold per_second, audio_rate. destruct (N.ltb_spec 0 ms); destruct (N.eqb_spec ms 0) as [MZ|MZ]; try lia; cbn [bind].
  - change U64_MAX with 18446744073709551615. destruct (N.ltb_spec 18446744073709551615 (file * 8)); [lia|].
    rewrite div64r_ok by (try lia; change (2 ^ 64) with 18446744073709551616; lia). cbn [bind]. fold (nearest (file * 8) ms).
    unfold per_second. destruct (N.eqb_spec ms 0); [lia|].
    destruct (nearest (m_byterate f * 8) 1000 =? 0); [|reflexivity].
    rewrite div64r_ok by (try lia; change (2 ^ 64) with 18446744073709551616; lia). cbn [bind]. fold (nearest (stream * 8) ms). reflexivity.
  - unfold per_second. destruct (N.eqb_spec ms 0); [|lia]. destruct (N.eqb_spec (nearest (m_byterate f * 8) 1000) 0) as [Z|Z]; [|reflexivity]. now rewrite Z.
Qed.

(** The extensible format: the valid bits, the mask of the channels and the format behind the common fields (14 more bytes of its GUID follow). *)
Definition ext_chunk (channels rate byterate align bits extra valid mask sub : N) : bytes :=
  fmt_chunk 0xFFFE channels rate byterate align bits ++ le_enc 2 extra ++ le_enc 2 valid ++ le_enc 4 mask ++ le_enc 2 sub.
Lemma ext_read : forall channels rate byterate align bits extra valid mask sub more, channels < 2 ^ 16 -> rate < 2 ^ 32 -> byterate < 2 ^ 32 -> align < 2 ^ 16 -> bits < 2 ^ 16 ->
  valid < 2 ^ 16 -> mask < 2 ^ 32 -> sub < 2 ^ 16 -> 14 <= lenN more ->
  read_fmt (ext_chunk channels rate byterate align bits extra valid mask sub ++ more) = Ok (mkFmt sub (channels mod 256) rate byterate align bits (Some (valid, mask))).
Proof.
  intros channels rate byterate align bits extra valid mask sub more C R B A BI V M SU L. unfold ext_chunk, fmt_chunk. rewrite <- !app_assoc. unfold read_fmt.
  match goal with |- context [lenN ?x <? 40] => assert (LE : lenN x <? 40 = false) end. { apply N.ltb_ge. rewrite !lenN_app, !le_enc_len. lia. } rewrite LE. unfold read_le.
  repeat (rewrite read_exact_app by apply le_enc_len; cbn [iord bind]). rewrite !le_dec_enc by (first [assumption|reflexivity]). reflexivity.
Qed.
Theorem C234_extensible : forall channels rate byterate align bits extra valid mask sub more facts stream file,
  1 <= channels < 256 -> 1 <= rate < 2 ^ 32 -> byterate < 2 ^ 32 -> align < 2 ^ 16 -> 8 <= bits < 256 -> bits mod 8 = 0 -> valid < 256 -> mask < 2 ^ 32 -> sub = 1 \/ sub = 3 -> 14 <= lenN more ->
  channels * (bits / 8) <= stream < 2 ^ 32 -> file < 2 ^ 60 ->
  let ms := length_ms (stream / (channels * (bits / 8))) rate in
  wav_properties (ext_chunk channels rate byterate align bits extra valid mask sub ++ more) facts stream file =
  Ok (mkWp (if sub =? 1 then WPcm else WFloat) ms (per_second file ms) (audio_rate byterate stream ms) rate (if valid =? 0 then bits else valid) channels (Some mask)).
Proof.
  intros channels rate byterate align bits extra valid mask sub more facts stream file C R B A BI BM V M SU L ST FI ms.
  assert (P1 : 1 <= bits / 8) by (apply N.div_le_lower_bound; lia).
  assert (SB : sub < 2 ^ 16) by (destruct SU; subst; reflexivity). assert (C16 : channels < 2 ^ 16) by (change (2 ^ 16) with 65536; lia). assert (B16 : bits < 2 ^ 16) by (change (2 ^ 16) with 65536; lia).
  assert (V16 : valid < 2 ^ 16) by (change (2 ^ 16) with 65536; lia).
  pose proof (ext_read channels rate byterate align bits extra valid mask sub more C16 (proj2 R) B A B16 V16 M SB L) as RF. rewrite N.mod_small in RF by lia.
  assert (D : 1 <= stream / (channels * (bits / 8)) <= stream). { split; [apply N.div_le_lower_bound; nia|apply N.div_le_upper_bound; nia]. }
  assert (S1 : 1 <= stream < 2 ^ 32) by nia. clear P1.
  assert (L16 : 16 <= lenN (ext_chunk channels rate byterate align bits extra valid mask sub ++ more)) by (unfold ext_chunk, fmt_chunk; rewrite !lenN_app, !le_enc_len; lia).
  assert (PC : (0 <? bits) && ((facts =? 0) || ((sub =? 1) || (sub =? 3))) = true) by (destruct (N.ltb_spec 0 bits); [|lia]; destruct SU; subst; cbn [N.eqb andb]; rewrite ?orb_true_r; reflexivity).
  rewrite (core _ _ facts stream file (stream / (channels * (bits / 8))) L16 S1 RF); cbn [m_channels m_bits m_tag m_rate m_byterate m_align m_ext]; auto.
  - fold ms. f_equal. f_equal.
    + unfold format_name. destruct SU; subst; reflexivity.
    + destruct (N.ltb_spec 0 valid); destruct (N.eqb_spec valid 0); try lia. unfold as_u8. apply N.mod_small. change (2 ^ 8) with 256. lia.
      destruct (N.ltb_spec 0 bits); [|lia]. unfold as_u8. apply N.mod_small. change (2 ^ 8) with 256. lia.
  - apply C.
  - tauto.
  - now rewrite PC.
  - split; [apply D|]. eapply N.le_lt_trans; [apply D|apply S1].
Qed.
(** 24 of 32 bits in 6 channels *)
Example C234_extensible_example : wav_properties (ext_chunk 6 48000 1152000 24 32 22 24 0x3F 1 ++ repeat 0 14) 0 1152000 1152068 = Ok (mkWp WPcm 1000 9217 9216 48000 24 6 (Some 0x3F)).
Proof. vm_compute. reflexivity. Qed.

(** Other formats: the number of samples is that of the fact chunk. *)
Theorem C234_compressed : forall tag channels rate byterate align bits more facts stream file,
  tag < 2 ^ 16 -> tag <> 1 -> tag <> 3 -> tag <> 0xFFFE -> 1 <= channels < 256 -> 1 <= rate < 2 ^ 32 -> byterate < 2 ^ 32 -> align < 2 ^ 16 -> bits < 256 -> bits mod 8 = 0 ->
  1 <= facts < 2 ^ 32 -> 1 <= stream < 2 ^ 32 -> file < 2 ^ 60 ->
  let ms := length_ms facts rate in
  wav_properties (fmt_chunk tag channels rate byterate align bits ++ more) facts stream file =
  Ok (mkWp (WOther tag) ms (per_second file ms) (audio_rate byterate stream ms) rate (if bits =? 0 then N.min (align / channels * 8) 65535 mod 256 else bits) channels None).
Proof.
  intros tag channels rate byterate align bits more facts stream file T T1 T3 TE C R B A BI BM F ST FI ms.
  pose proof (fmt_read tag channels rate byterate align bits more T TE ltac:(change (2 ^ 16) with 65536; lia) (proj2 R) B A ltac:(change (2 ^ 16) with 65536; lia)) as RF. rewrite N.mod_small in RF by lia.
  assert (L16 : 16 <= lenN (fmt_chunk tag channels rate byterate align bits ++ more)) by (unfold fmt_chunk; rewrite !lenN_app, !le_enc_len; lia).
  rewrite (core _ _ facts stream file facts L16 ST RF); cbn [m_channels m_bits m_tag m_rate m_byterate m_align m_ext]; auto.
  - fold ms. f_equal. f_equal.
    + unfold format_name. destruct (N.eqb_spec tag 1); [contradiction|]. destruct (N.eqb_spec tag 3); [contradiction|]. reflexivity.
    + destruct (N.ltb_spec 0 bits); destruct (N.eqb_spec bits 0); try lia; [|reflexivity]. unfold as_u8. apply N.mod_small. change (2 ^ 8) with 256. lia.
  - apply C.
  - right. right. lia.
  - destruct (N.eqb_spec facts 0); [lia|]. destruct (N.eqb_spec tag 1); [contradiction|]. destruct (N.eqb_spec tag 3); [contradiction|]. cbn [orb]. rewrite andb_false_r. reflexivity.
Qed.
(** MP3 in a WAV file *)
Example C234_compressed_example : wav_properties (fmt_chunk 0x55 2 44100 16000 1 0) 88200 32000 32100 = Ok (mkWp (WOther 0x55) 2000 128 128 44100 0 2 None).
Proof. vm_compute. reflexivity. Qed.
(** In a whole file: the first number of a fact chunk that is not 0. *)
Theorem C234_file : forall m ws junk f d fs n tag channels rate byterate align bits more,
  Forall (wchunk_ok m) ws -> lenN junk < 8 -> 12 + lenN (body false (map to_chunk ws)) < 2 ^ 32 ->
  with_id ($"fmt ") ws = [f] -> with_id ($"data") ws = [d] -> with_id ($"fact") ws = [fs] -> takeN 4 fs = le_enc 4 n -> 1 <= n < 2 ^ 32 -> 1 <= lenN d < 2 ^ 32 ->
  f = fmt_chunk tag channels rate byterate align bits ++ more ->
  tag < 2 ^ 16 -> tag <> 1 -> tag <> 3 -> tag <> 0xFFFE -> 1 <= channels < 256 -> 1 <= rate < 2 ^ 32 -> byterate < 2 ^ 32 -> align < 2 ^ 16 -> bits < 256 -> bits mod 8 = 0 ->
  let ms := length_ms n rate in
  exists x p, wav_read no_id3 (fun a _ => a) m false true (riff_file (map to_chunk ws) ++ junk) = Ok x /\ wf_props x = Some p /\
    wp_format p = WOther tag /\ wp_duration p = ms /\ wp_overall p = per_second (lenN (riff_file (map to_chunk ws))) ms /\ wp_audio p = audio_rate byterate (lenN d) ms /\ wp_rate p = rate /\ wp_channels p = channels.
Proof.
  intros m ws junk f d fs n tag channels rate byterate align bits more W J L FM DA FA TK NN DD EF T T1 T3 TE C R B A BI BM ms.
  rewrite wav_read_spec by (auto; lia). cbn [join_if bind]. rewrite FM, DA, FA. cbn [map first_nonempty first_nonzero]. rewrite TK, le_dec_enc by apply NN.
  assert (LF : 16 <= lenN f) by (subst f; unfold fmt_chunk; rewrite !lenN_app, !le_enc_len; lia). destruct (N.eqb_spec (lenN f) 0); [lia|]. destruct (N.eqb_spec n 0); [lia|]. destruct (N.eqb_spec (lenN d) 0); [lia|].
  assert (BL : lenN (riff_file (map to_chunk ws)) = 12 + lenN (body false (map to_chunk ws))) by (assert (X := riff_len (map to_chunk ws) []); rewrite app_nil_r, lenN_nil in X; lia).
  subst f. rewrite (C234_compressed tag channels rate byterate align bits more n (lenN d) (lenN (riff_file (map to_chunk ws)))); auto. 2:{ change (2 ^ 60) with 1152921504606846976. change (2 ^ 32) with 4294967296 in L. lia. }
  cbn [bind]. eexists _, _. split; [reflexivity|]. split; [reflexivity|]. repeat split.
Qed.
(** Without that number a file in another format is an error. *)
Theorem C234_no_fact : forall tag channels rate byterate align bits more stream file,
  tag < 2 ^ 16 -> tag <> 1 -> tag <> 3 -> tag <> 0xFFFE -> 1 <= channels < 256 -> rate < 2 ^ 32 -> byterate < 2 ^ 32 -> align < 2 ^ 16 -> bits < 2 ^ 16 -> bits mod 8 = 0 -> 1 <= stream ->
  wav_properties (fmt_chunk tag channels rate byterate align bits ++ more) 0 stream file = Err (IMessage 6).
Proof.
  intros tag channels rate byterate align bits more stream file T T1 T3 TE C R B A BI BM ST. unfold wav_properties.
  match goal with |- context [lenN ?x <? 16] => assert (LE : lenN x <? 16 = false) end. { apply N.ltb_ge. unfold fmt_chunk. rewrite !lenN_app, !le_enc_len. lia. } rewrite LE. destruct (N.eqb_spec stream 0); [lia|].
  rewrite fmt_read by (auto; change (2 ^ 16) with 65536; lia). cbn [bind m_channels m_bits m_tag]. rewrite (N.mod_small channels) by lia. destruct (N.eqb_spec channels 0); [lia|]. rewrite BM.
  destruct (N.eqb_spec tag 1); [contradiction|]. destruct (N.eqb_spec tag 3); [contradiction|]. reflexivity.
Qed.
(** ADPCM has four bits for each sample: such a file cannot be read, whatever is in its fact chunk. *)
Theorem C234_adpcm_refuted : forall tag channels rate byterate align more facts stream file, In tag [2; 0x11] -> 1 <= channels < 256 -> rate < 2 ^ 32 -> byterate < 2 ^ 32 -> align < 2 ^ 16 -> 1 <= stream ->
  wav_properties (fmt_chunk tag channels rate byterate align 4 ++ more) facts stream file = Err (IMessage 5).
Proof.
  intros tag channels rate byterate align more facts stream file I C R B A ST. unfold wav_properties.
  match goal with |- context [lenN ?x <? 16] => assert (LE : lenN x <? 16 = false) end. { apply N.ltb_ge. unfold fmt_chunk. rewrite !lenN_app, !le_enc_len. lia. } rewrite LE. destruct (N.eqb_spec stream 0); [lia|].
  assert (T : tag < 2 ^ 16 /\ tag <> 0xFFFE) by (cbn [In] in I; destruct I as [<- |[<- |[]]]; split; (reflexivity || discriminate)).
  rewrite fmt_read by (try apply T; auto; try (change (2 ^ 16) with 65536; lia)). cbn [bind m_channels m_bits]. rewrite (N.mod_small channels) by lia. destruct (N.eqb_spec channels 0); [lia|]. reflexivity.
Qed.
(** A sample of 32 bytes has 0 bits: the number of bits is cut to eight bits. *)
Theorem C234_depth_refuted : exists p, wav_properties (fmt_chunk 0x55 1 8000 8000 32 0) 8000 8000 8044 = Ok p /\ wp_depth p = 0.
Proof. eexists. split; vm_compute; reflexivity. Qed.
(** Without a rate the length comes from the number of bytes for each second. *)
Theorem C234_no_rate : forall tag channels byterate align bits more facts stream file, tag = 1 \/ tag = 3 -> 1 <= channels < 256 -> 1 <= byterate < 2 ^ 32 -> align < 2 ^ 16 -> bits < 2 ^ 16 -> bits mod 8 = 0 -> 1 <= stream < 2 ^ 32 -> file < 2 ^ 60 ->
  exists p, wav_properties (fmt_chunk tag channels 0 byterate align bits ++ more) facts stream file = Ok p /\
    wp_duration p = length_ms stream byterate /\ wp_overall p = per_second file (length_ms stream byterate) /\ wp_rate p = 0.
Proof.
  intros tag channels byterate align bits more facts stream file TG C B A BI BM ST FI. unfold wav_properties.
  match goal with |- context [lenN ?x <? 16] => assert (LE : lenN x <? 16 = false) end. { apply N.ltb_ge. unfold fmt_chunk. rewrite !lenN_app, !le_enc_len. lia. } rewrite LE. destruct (N.eqb_spec stream 0); [lia|].
  assert (T16 : tag < 2 ^ 16 /\ tag <> 65534) by (destruct TG; subst; split; (reflexivity || discriminate)).
  rewrite fmt_read; try apply T16; try apply B; auto; try reflexivity; try (change (2 ^ 16) with 65536; lia).
  cbn [bind m_channels m_bits m_tag m_rate m_byterate m_align m_ext]. rewrite (N.mod_small channels) by lia. destruct (N.eqb_spec channels 0); [lia|]. rewrite BM. change (0 =? 0) with true. cbn [negb].
  assert (PC : ((tag =? 1) || (tag =? 3)) = true) by (destruct TG; subst; reflexivity). rewrite PC. cbn [negb andb].
  change (2 ^ 32) with 4294967296 in *. change (2 ^ 60) with 1152921504606846976 in FI.
  destruct (N.ltb_spec 0 byterate); [|lia]. rewrite div64r_ok by (try reflexivity; change (2 ^ 64) with 18446744073709551616; lia). cbn [bind].
  change (0 <? 0) with false. cbn [andb]. destruct (N.ltb_spec 0 stream); [|lia]. cbn [andb].
  rewrite div64r_ok by (try lia; change (2 ^ 64) with 18446744073709551616; lia). cbn [bind]. fold (nearest (stream * 1000) byterate). fold (length_ms stream byterate).
  assert (MB : length_ms stream byterate <= stream * 1000 + 1) by (apply nearest_le; lia). set (ms := length_ms stream byterate) in *.
  unfold per_second. destruct (N.ltb_spec 0 ms); destruct (N.eqb_spec ms 0) as [MZ|MZ]; try lia; cbn [bind]; [|eexists; repeat split].
  change U64_MAX with 18446744073709551615. destruct (N.ltb_spec 18446744073709551615 (file * 8)); [lia|].
  rewrite div64r_ok by (try lia; change (2 ^ 64) with 18446744073709551616; lia). cbn [bind]. eexists. repeat split.
Qed.
Example C234_no_rate_example : exists p, wav_properties (fmt_chunk 1 1 0 8000 1 8) 0 16000 16044 = Ok p /\ wp_duration p = 2000 /\ wp_overall p = 64.
Proof. eexists. split; vm_compute; [reflexivity|]. split; reflexivity. Qed.
