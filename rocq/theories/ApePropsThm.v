(** Audio properties of APE files. *)
From Verif Require Import BaseLemmas StrLemmas F64Proof Id3v1Model Id3v1Thm Id3v2HeaderModel FrameReadModel AiffModel AiffProof3 MpegModel MpegProof3 MpegProof5 TailProof MusepackProof2 ApeModel ApeThm2.
From Verif Require Export ApePropsProof.
From Verif Require Import Base Str.

(** ** The format: the header of a Monkey's Audio stream *)
Record mhead := mkMH { mh_version : N; mh_level : N; mh_flags : N; mh_per_frame : N; mh_final : N; mh_frames : N; mh_depth : N; mh_channels : N; mh_rate : N }.
Definition words_ok (h : mhead) : Prop := mh_version h < 2 ^ 16 /\ mh_level h < 2 ^ 16 /\ mh_flags h < 2 ^ 16 /\ mh_per_frame h < 2 ^ 32 /\ mh_final h < 2 ^ 32 /\ mh_frames h < 2 ^ 32 /\ mh_depth h < 2 ^ 16 /\ mh_channels h < 2 ^ 16 /\ mh_rate h < 2 ^ 32.
(** From version 3.98 on: a descriptor of 52 bytes or more, then the header. [descr] are the 40 bytes after the length of the descriptor. *)
Definition new_stream (h : mhead) (pad : N) (descr extra audio : bytes) : bytes :=
  le_enc 2 (mh_version h) ++ le_enc 2 pad ++ le_enc 4 (52 + lenN extra) ++ descr ++ extra ++
  le_enc 2 (mh_level h) ++ le_enc 2 (mh_flags h) ++ le_enc 4 (mh_per_frame h) ++ le_enc 4 (mh_final h) ++ le_enc 4 (mh_frames h) ++ le_enc 2 (mh_depth h) ++ le_enc 2 (mh_channels h) ++ le_enc 4 (mh_rate h) ++ audio.
Definition new_ok (h : mhead) (pad : N) (descr extra : bytes) : Prop := words_ok h /\ 3980 <= mh_version h /\ pad < 2 ^ 16 /\ lenN descr = 40 /\ 52 + lenN extra < 2 ^ 32.
(** Before: no descriptor, the blocks in a frame and the bits in a sample follow from the version, the compression and the flags. *)
Definition old_stream (h : mhead) (lengths audio : bytes) : bytes :=
  le_enc 2 (mh_version h) ++ le_enc 2 (mh_level h) ++ le_enc 2 (mh_flags h) ++ le_enc 2 (mh_channels h) ++ le_enc 4 (mh_rate h) ++ lengths ++ le_enc 4 (mh_frames h) ++ le_enc 4 (mh_final h) ++ audio.
Inductive frame_blocks : N -> N -> N -> Prop :=
| fb_395 : forall v level, 3950 <= v -> frame_blocks v level 294912
| fb_390 : forall v level, 3900 <= v < 3950 -> frame_blocks v level 73728
| fb_extra : forall v level, 3800 <= v < 3900 -> 4000 <= level -> frame_blocks v level 73728
| fb_normal : forall v level, 3800 <= v < 3900 -> level < 4000 -> frame_blocks v level 9216
| fb_old : forall v level, v < 3800 -> frame_blocks v level 9216.
Inductive sample_bits (flags : N) : N -> Prop :=
| sb_8 : N.testbit flags 0 = true -> sample_bits flags 8
| sb_24 : N.testbit flags 0 = false -> N.testbit flags 3 = true -> sample_bits flags 24
| sb_16 : N.testbit flags 0 = false -> N.testbit flags 3 = false -> sample_bits flags 16.
Definition old_ok (h : mhead) (lengths : bytes) : Prop := words_ok h /\ mh_version h < 3980 /\ lenN lengths = 8 /\ frame_blocks (mh_version h) (mh_level h) (mh_per_frame h) /\ sample_bits (mh_flags h) (mh_depth h).
(** A stream with the header [h] *)
Inductive has_header (h : mhead) : bytes -> Prop :=
| hh_new : forall pad descr extra audio, new_ok h pad descr extra -> has_header h (new_stream h pad descr extra audio)
| hh_old : forall lengths audio, old_ok h lengths -> has_header h (old_stream h lengths audio).
(** A header that stands for some audio; all frames but the last are full. *)
Definition audible (h : mhead) : Prop := 1 <= mh_channels h <= 32 /\ 1 <= mh_frames h.
Definition blocks (h : mhead) : N := (mh_frames h - 1) * mh_per_frame h + mh_final h.

(** ** Reading a header *)
Definition fields (h : mhead) : mac_props := mkMac (mh_version h) 0 0 0 (mh_rate h) (mh_depth h mod 256) (mh_channels h mod 256).
Lemma le4 : forall e v r, v < 2 ^ 32 -> or_mac e (read_le 4 (le_enc 4 v ++ r)) = Ok (v, r).
Proof. intros. rewrite (BaseLemmas.read_le_app 4) by auto. reflexivity. Qed.
Lemma le2 : forall e v r, v < 2 ^ 16 -> or_mac e (read_le 2 (le_enc 2 v ++ r)) = Ok (v, r).
Proof. intros. rewrite (BaseLemmas.read_le_app 2) by auto. reflexivity. Qed.
Lemma land_bit0 : forall f, (N.land f 1 =? 1) = N.testbit f 0.
Proof. intros. change 1 with (N.ones 1) at 1. rewrite N.land_ones. change (2 ^ 1) with 2. rewrite N.bit0_odd. pose proof (N.div2_odd f) as D. rewrite N.div2_div in D. pose proof (N.div_mod f 2 ltac:(discriminate)). destruct (N.odd f); cbn [N.b2n] in D; [replace (f mod 2) with 1 by lia|replace (f mod 2) with 0 by lia]; reflexivity. Qed.
Lemma land_bit3 : forall f, (N.land f 8 =? 8) = N.testbit f 3.
Proof.
  intros. destruct (N.testbit f 3) eqn:T.
  - apply N.eqb_eq. apply N.bits_inj. intros n. rewrite N.land_spec. change 8 with (2 ^ 3). rewrite N.pow2_bits_eqb. destruct (N.eqb_spec 3 n) as [<-|]; [now rewrite T|now rewrite andb_false_r].
  - apply N.eqb_neq. intros X. apply (f_equal (fun a => N.testbit a 3)) in X. rewrite N.land_spec, T in X. discriminate.
Qed.
Lemma per_frame_spec : forall v level n, frame_blocks v level n -> mac_per_frame v level = n.
Proof.
  intros v level n H. unfold mac_per_frame. destruct H; repeat match goal with |- context [?a <=? ?b] => destruct (N.leb_spec a b); [|] end; cbn [orb andb]; try reflexivity; lia.
Qed.
Lemma read_header : forall h m tail sl fl strict, has_header h m -> mac_read (m ++ tail) sl fl strict = mac_finish strict (fields h) fl (mh_frames h) (mh_final h) (mh_per_frame h) sl.
Proof.
  intros h m tail sl fl strict [pad descr extra audio ((A & B & C & D & E & F & G & H & I) & V & P & LD & LE)|lengths audio ((A & B & C & D & E & F & G & H & I) & V & LL & FB & SB)].
  - unfold mac_read, new_stream. rewrite <- !app_assoc. rewrite le2 by auto. cbn [bind]. destruct (N.leb_spec 3980 (mh_version h)); [|lia]. unfold mac_new.
    rewrite (app_assoc (le_enc 4 _)), (app_assoc (le_enc 2 pad)). rewrite read_exact_app by (rewrite !lenN_app, !le_enc_len, LD; reflexivity). cbn [or_mac bind].
    rewrite dropN_app by now rewrite le_enc_len. rewrite takeN_app by now rewrite le_enc_len. rewrite le_dec_enc by exact LE.
    assert (SK : forall r, (if 52 <? 52 + lenN extra then dropN (52 + lenN extra - 52) (extra ++ r) else extra ++ r) = r).
    { intros r. destruct (N.ltb_spec 52 (52 + lenN extra)). - apply dropN_app. lia. - assert (lenN extra = 0) by lia. destruct extra; [reflexivity|]. rewrite lenN_cons in *. lia. }
    rewrite SK. clear SK.
    rewrite !(app_assoc (le_enc 2 (mh_level h))), !(app_assoc _ _ (audio ++ tail)). rewrite <- !app_assoc.
    match goal with |- context [read_exact 24 ?x] => assert (RE : read_exact 24 x = Some (le_enc 2 (mh_level h) ++ le_enc 2 (mh_flags h) ++ le_enc 4 (mh_per_frame h) ++ le_enc 4 (mh_final h) ++ le_enc 4 (mh_frames h) ++ le_enc 2 (mh_depth h) ++ le_enc 2 (mh_channels h) ++ le_enc 4 (mh_rate h) ++ [], audio ++ tail)) end.
    { match goal with |- read_exact 24 ?x = Some (?a, _) => replace x with (a ++ audio ++ tail) by (rewrite <- !app_assoc; reflexivity) end. apply read_exact_app. rewrite !lenN_app, !le_enc_len. reflexivity. }
    rewrite RE. clear RE. cbn [or_mac bind]. rewrite (app_assoc (le_enc 2 (mh_level h))). rewrite dropN_app by (rewrite lenN_app, !le_enc_len; reflexivity).
    rewrite le4 by auto. cbn [bind]. rewrite le4 by auto. cbn [bind]. rewrite le4 by auto. cbn [bind]. rewrite le2 by auto. cbn [bind]. rewrite le2 by auto. cbn [bind]. rewrite le4 by auto. reflexivity.
  - unfold mac_read, old_stream. rewrite <- !app_assoc. rewrite le2 by auto. cbn [bind]. destruct (N.leb_spec 3980 (mh_version h)); [lia|]. unfold mac_old.
    match goal with |- context [read_exact 26 ?x] => assert (RE : read_exact 26 x = Some (le_enc 2 (mh_level h) ++ le_enc 2 (mh_flags h) ++ le_enc 2 (mh_channels h) ++ le_enc 4 (mh_rate h) ++ lengths ++ le_enc 4 (mh_frames h) ++ le_enc 4 (mh_final h) ++ [], audio ++ tail)) end.
    { match goal with |- read_exact 26 ?x = Some (?a, _) => replace x with (a ++ audio ++ tail) by (rewrite <- !app_assoc; reflexivity) end. apply read_exact_app. rewrite !lenN_app, !le_enc_len, LL. reflexivity. }
    rewrite RE. clear RE. cbn [or_mac bind]. rewrite le2 by auto. cbn [bind]. rewrite le2 by auto. cbn [bind]. rewrite le2 by auto. cbn [bind]. rewrite le4 by auto. cbn [bind].
    rewrite read_exact_app by auto. cbn [or_mac bind]. rewrite le4 by auto. cbn [bind]. rewrite le4 by auto. cbn [bind].
    rewrite (per_frame_spec _ _ _ FB), land_bit0, land_bit3. unfold fields. destruct SB as [S1|S1 S2|S1 S2]; rewrite S1; try rewrite S2; reflexivity.
Qed.
Lemma verified : forall h, audible h -> mac_verify (mh_frames h) (mh_channels h mod 256) = Ok tt.
Proof. intros h ([A B] & C). unfold mac_verify. rewrite N.mod_small by lia. destruct (N.leb_spec 1 (mh_channels h)); [|lia]. destruct (N.leb_spec (mh_channels h) 32); [|lia]. cbn [andb negb]. destruct (N.eqb_spec (mh_frames h) 0); [lia|reflexivity]. Qed.
Lemma header_len : forall h m, has_header h m -> 28 <= lenN m.
Proof. intros h m [pad descr extra audio (_ & _ & _ & LD & _)|lengths audio (_ & _ & LL & _)]; unfold new_stream, old_stream; rewrite !lenN_app, !le_enc_len; lia. Qed.
(** A file with the header [h] and tags *)
Definition mac_stream (inflate : bytes -> option bytes) (o : mopts) (h : mhead) (pre body ape v1 : bytes) (v2 : option id3v2_tag) (v1t : option id3v1) : Prop :=
  (exists m, body = $"MAC " ++ m /\ has_header h m) /\ mac_tags inflate o pre body ape v1 v2 v1t.
Lemma whole_file : forall inflate o h pre body ape v1 v2 v1t, mac_stream inflate o h pre body ape v1 v2 v1t ->
  exists t, ape_of o ape t /\ mac_file_read inflate o (pre ++ body ++ ape ++ v1) =
    let? p := (if mo_props o then mac_finish (mo_strict o) (fields h) (reached o pre body ape) (mh_frames h) (mh_final h) (mh_per_frame h) (lenN body) else Ok mac_default) in Ok (mkMacF v2 v1t t p).
Proof.
  intros inflate o h pre body ape v1 v2 v1t ((m & -> & HH) & MT). pose proof (header_len h m HH) as HL. destruct (mac_shape inflate o pre m ape v1 v2 v1t MT) as (t & AT & E). { rewrite !lenN_app. change (lenN ($"MAC ")) with 4. lia. }
  exists t. split; [exact AT|]. rewrite E. rewrite (read_header h m (ape ++ v1) _ _ _ HH). reflexivity.
Qed.
(** The properties when the duration is [d], the bit rates [a] and [b] *)
Definition mac_with (h : mhead) (d a b : N) : mac_props := mkMac (mh_version h) d a b (mh_rate h) (mh_depth h mod 256) (mh_channels h mod 256).
Lemma finished : forall h strict fl sl, audible h -> mac_finish strict (fields h) fl (mh_frames h) (mh_final h) (mh_per_frame h) sl =
  if 0 <? mh_rate h then let len := f64_length (mac_samples (mh_frames h) (mh_final h) (mh_per_frame h)) (mh_rate h) in Ok (mac_with h (f64_nearest_ms len) (mac_kbps fl len) (mac_kbps sl len)) else Ok (fields h).
Proof. intros h strict fl sl A. unfold mac_finish. change (mac_channels (fields h)) with (mh_channels h mod 256). rewrite (verified h A). unfold mac_times. change (mac_rate (fields h)) with (mh_rate h). destruct (0 <? mh_rate h); reflexivity. Qed.

(** ** C223, C224: the header *)
Definition says (p : mac_props) (h : mhead) : Prop := mac_version p = mh_version h /\ mac_rate p = mh_rate h /\ mac_depth p = mh_depth h /\ mac_channels p = mh_channels h.
Lemma said : forall inflate o h pre body ape v1 v2 v1t, mo_props o = true -> mac_stream inflate o h pre body ape v1 v2 v1t -> audible h -> mh_depth h < 256 ->
  exists f, mac_file_read inflate o (pre ++ body ++ ape ++ v1) = Ok f /\ mc_v2 f = v2 /\ mc_v1 f = v1t /\ ape_of o ape (mc_ape f) /\ says (mc_props f) h.
Proof.
  intros inflate o h pre body ape v1 v2 v1t MP MS AU DL. destruct (whole_file _ _ _ _ _ _ _ _ _ MS) as (t & AT & E). rewrite MP, (finished h _ _ _ AU) in E.
  assert (Q : says (fields h) h). { unfold says, fields. cbn. rewrite !N.mod_small; auto. destruct AU. lia. }
  destruct (0 <? mh_rate h); cbv zeta in E; cbn [bind] in E; (eexists; split; [exact E|]; repeat split; auto; apply Q).
Qed.
Theorem C223_descriptor : forall inflate o h pad descr extra audio pre ape v1 v2 v1t, let body := $"MAC " ++ new_stream h pad descr extra audio in
  mo_props o = true -> new_ok h pad descr extra -> audible h -> mh_depth h < 256 -> mac_tags inflate o pre body ape v1 v2 v1t ->
  exists f, mac_file_read inflate o (pre ++ body ++ ape ++ v1) = Ok f /\ mc_v2 f = v2 /\ mc_v1 f = v1t /\ ape_of o ape (mc_ape f) /\ says (mc_props f) h.
Proof. intros inflate o h pad descr extra audio pre ape v1 v2 v1t body MP OK AU DL MT. apply said; auto. split; [|exact MT]. eexists. split; [reflexivity|]. now constructor. Qed.
Print Assumptions C223_descriptor.
Theorem C224_old_header : forall inflate o h lengths audio pre ape v1 v2 v1t, let body := $"MAC " ++ old_stream h lengths audio in
  mo_props o = true -> old_ok h lengths -> audible h -> mac_tags inflate o pre body ape v1 v2 v1t ->
  exists f, mac_file_read inflate o (pre ++ body ++ ape ++ v1) = Ok f /\ mc_v2 f = v2 /\ mc_v1 f = v1t /\ ape_of o ape (mc_ape f) /\ says (mc_props f) h.
Proof.
  intros inflate o h lengths audio pre ape v1 v2 v1t body MP OK AU MT. apply said; auto. { split; [|exact MT]. eexists. split; [reflexivity|]. now constructor. }
  destruct OK as (_ & _ & _ & _ & []); reflexivity.
Qed.
Print Assumptions C224_old_header.

(** ** C225: the duration *)
Lemma samples_blocks : forall h, 1 < mh_final h -> mac_samples (mh_frames h) (mh_final h) (mh_per_frame h) = blocks h.
Proof. intros h F. unfold mac_samples, blocks. destruct (N.ltb_spec 1 (mh_final h)); lia. Qed.
Lemma blocks_pos : forall h, 1 < mh_final h -> 0 < blocks h.
Proof. intros h F. unfold blocks. generalize ((mh_frames h - 1) * mh_per_frame h). intros n. lia. Qed.
Definition nearest_ms (d samples rate : N) : Prop := d = (2 * (samples * 1000) + rate) / (2 * rate).
Lemma props_of : forall inflate o h pre body ape v1 v2 v1t, mo_props o = true -> mac_stream inflate o h pre body ape v1 v2 v1t -> audible h -> 0 < mh_rate h ->
  exists f, mac_file_read inflate o (pre ++ body ++ ape ++ v1) = Ok f /\
    let len := f64_length (mac_samples (mh_frames h) (mh_final h) (mh_per_frame h)) (mh_rate h) in
    mc_props f = mac_with h (f64_nearest_ms len) (mac_kbps (reached o pre body ape) len) (mac_kbps (lenN body) len).
Proof.
  intros inflate o h pre body ape v1 v2 v1t MP MS AU R. destruct (whole_file _ _ _ _ _ _ _ _ _ MS) as (t & AT & E). rewrite MP, (finished h _ _ _ AU) in E. destruct (N.ltb_spec 0 (mh_rate h)); [|lia]. cbv zeta in E. cbn [bind] in E. eexists. split; [exact E|reflexivity].
Qed.
Lemma rate_ok : forall h m, has_header h m -> mh_rate h < 2 ^ 32.
Proof. intros h m [pad descr extra audio ((_ & _ & _ & _ & _ & _ & _ & _ & R) & _)|lengths audio ((_ & _ & _ & _ & _ & _ & _ & _ & R) & _)]; exact R. Qed.
Lemma length_pos : forall samples rate, 0 < samples -> samples < 2 ^ 38 -> 0 < rate -> rate < 2 ^ 32 -> fst (f64_length samples rate) =? 0 = false.
Proof. intros s r A B C D. destruct (length_close s r) as [LS LC]; auto. { eapply N.lt_trans; [exact B|reflexivity]. } apply N.eqb_neq. assert (0 < fst (f64_length s r)); [|lia]. eapply close_pos; [| |exact LC]; [lia|rewrite LS; apply scale_pos]. Qed.
Theorem C225_duration_partial : forall inflate o h pre body ape v1 v2 v1t, mo_props o = true -> mac_stream inflate o h pre body ape v1 v2 v1t -> audible h -> 0 < mh_rate h -> 1 < mh_final h -> blocks h < 2 ^ 38 ->
  exists f, mac_file_read inflate o (pre ++ body ++ ape ++ v1) = Ok f /\ nearest_ms (mac_duration (mc_props f)) (blocks h) (mh_rate h).
Proof.
  intros inflate o h pre body ape v1 v2 v1t MP MS AU R F B. destruct (props_of _ _ _ _ _ _ _ _ _ MP MS AU R) as (f & E & P). exists f. split; [exact E|]. cbv zeta in P. rewrite P, samples_blocks by auto. unfold nearest_ms. cbn [mac_with mac_duration].
  destruct MS as ((m & _ & HH) & _). apply nearest_length; auto. { now apply blocks_pos. } eapply rate_ok; eauto.
Qed.
Print Assumptions C225_duration_partial.
(** Finding: when the last frame is of a single block, the others do not count. *)
Theorem C225_last_block_refuted : forall inflate o h pre body ape v1 v2 v1t, mo_props o = true -> mac_stream inflate o h pre body ape v1 v2 v1t -> audible h -> 0 < mh_rate h -> mh_final h = 1 ->
  exists f, mac_file_read inflate o (pre ++ body ++ ape ++ v1) = Ok f /\ nearest_ms (mac_duration (mc_props f)) 1 (mh_rate h).
Proof.
  intros inflate o h pre body ape v1 v2 v1t MP MS AU R F. destruct (props_of _ _ _ _ _ _ _ _ _ MP MS AU R) as (f & E & P). exists f. split; [exact E|]. cbv zeta in P. rewrite P. unfold mac_samples. rewrite F. change (1 <? 1) with false. unfold nearest_ms. cbn [mac_with mac_duration].
  destruct MS as ((m & _ & HH) & _). apply nearest_length; auto; try reflexivity. eapply rate_ok; eauto.
Qed.
Print Assumptions C225_last_block_refuted.
Theorem C225_no_rate : forall inflate o h pre body ape v1 v2 v1t, mo_props o = true -> mac_stream inflate o h pre body ape v1 v2 v1t -> audible h -> mh_rate h = 0 ->
  exists f, mac_file_read inflate o (pre ++ body ++ ape ++ v1) = Ok f /\ mac_duration (mc_props f) = 0 /\ mac_overall (mc_props f) = 0 /\ mac_audio (mc_props f) = 0.
Proof.
  intros inflate o h pre body ape v1 v2 v1t MP MS AU R. destruct (whole_file _ _ _ _ _ _ _ _ _ MS) as (t & AT & E). rewrite MP, (finished h _ _ _ AU), R in E. change (0 <? 0) with false in E. cbn [bind] in E. eexists. split; [exact E|]. auto.
Qed.
Print Assumptions C225_no_rate.

(** ** C226: the bit rates *)
Lemma kbps_eq : forall size len, fst len =? 0 = false -> mac_kbps size len = f64_kbps size len.
Proof. intros size len H. unfold mac_kbps. rewrite H. reflexivity. Qed.
Theorem C226_bit_rate : forall inflate o h pre body ape v1 v2 v1t, mo_props o = true -> mac_stream inflate o h pre body ape v1 v2 v1t -> audible h -> 0 < mh_rate h -> 1 < mh_final h -> blocks h < 2 ^ 38 ->
  lenN body < 2 ^ 50 -> lenN body * 8 * mh_rate h < U32_MAX * (blocks h * 1000) ->
  exists f, mac_file_read inflate o (pre ++ body ++ ape ++ v1) = Ok f /\ nearly_nearest (mac_audio (mc_props f)) (lenN body * 8 * mh_rate h) (blocks h * 1000).
Proof.
  intros inflate o h pre body ape v1 v2 v1t MP MS AU R F B L1 L2. destruct (props_of _ _ _ _ _ _ _ _ _ MP MS AU R) as (f & E & P). exists f. split; [exact E|]. cbv zeta in P. rewrite P, samples_blocks by auto. cbn [mac_with mac_audio].
  destruct MS as ((m & -> & HH) & _). assert (BP := blocks_pos h F). assert (RL := rate_ok h m HH). rewrite kbps_eq by (apply length_pos; auto). apply kbps_near; auto.
  - rewrite lenN_app. change (lenN ($"MAC ")) with 4. lia. - eapply N.lt_trans; [exact B|reflexivity].
Qed.
Print Assumptions C226_bit_rate.
(** The overall bit rate is that of the file if its last bytes are an APE tag that is read. *)
Lemma overall_of : forall inflate o h pre body ape v1 v2 v1t, mo_props o = true -> mac_stream inflate o h pre body ape v1 v2 v1t -> audible h -> 0 < mh_rate h -> 1 < mh_final h -> blocks h < 2 ^ 38 ->
  let n := reached o pre body ape in 0 < n -> n < 2 ^ 50 -> n * 8 * mh_rate h < U32_MAX * (blocks h * 1000) ->
  exists f, mac_file_read inflate o (pre ++ body ++ ape ++ v1) = Ok f /\ nearly_nearest (mac_overall (mc_props f)) (n * 8 * mh_rate h) (blocks h * 1000).
Proof.
  intros inflate o h pre body ape v1 v2 v1t MP MS AU R F B n L0 L1 L2. destruct (props_of _ _ _ _ _ _ _ _ _ MP MS AU R) as (f & E & P). exists f. split; [exact E|]. cbv zeta in P. rewrite P, samples_blocks by auto. cbn [mac_with mac_overall].
  destruct MS as ((m & -> & HH) & _). assert (BP := blocks_pos h F). assert (RL := rate_ok h m HH). rewrite kbps_eq by (apply length_pos; auto). apply kbps_near; auto. eapply N.lt_trans; [exact B|reflexivity].
Qed.
Theorem C226_overall_partial : forall inflate o h pre body ape v2, mo_props o = true -> mo_tags o = true -> mac_stream inflate o h pre body ape [] v2 None -> audible h -> 0 < mh_rate h -> 1 < mh_final h -> blocks h < 2 ^ 38 ->
  ape <> [] -> let data := pre ++ body ++ ape in lenN data < 2 ^ 50 -> lenN data * 8 * mh_rate h < U32_MAX * (blocks h * 1000) ->
  exists f, mac_file_read inflate o data = Ok f /\ nearly_nearest (mac_overall (mc_props f)) (lenN data * 8 * mh_rate h) (blocks h * 1000).
Proof.
  intros inflate o h pre body ape v2 MP MT MS AU R F B NE data L1 L2. assert (RE : reached o pre body ape = lenN data) by (unfold reached; destruct ape; [contradiction|now rewrite MT]).
  destruct (overall_of inflate o h pre body ape [] v2 None MP MS AU R F B) as (f & E & Q); rewrite ?RE; auto. { unfold data. destruct ape; [contradiction|]. rewrite !lenN_app, lenN_cons. lia. }
  exists f. rewrite !app_nil_r in E. split; [exact E|]. now rewrite RE in Q.
Qed.
Print Assumptions C226_overall_partial.
(** Finding: without an APE tag the last 24 bytes of the audio, and an ID3v1 tag, do not count. *)
Theorem C226_overall_refuted : forall inflate o h pre body v1 v2 v1t, mo_props o = true -> mac_stream inflate o h pre body [] v1 v2 v1t -> audible h -> 0 < mh_rate h -> 1 < mh_final h -> blocks h < 2 ^ 38 ->
  let n := lenN (pre ++ body) - 24 in n < 2 ^ 50 -> n * 8 * mh_rate h < U32_MAX * (blocks h * 1000) ->
  exists f, mac_file_read inflate o (pre ++ body ++ v1) = Ok f /\ nearly_nearest (mac_overall (mc_props f)) (n * 8 * mh_rate h) (blocks h * 1000).
Proof.
  intros inflate o h pre body v1 v2 v1t MP MS AU R F B n L1 L2. apply (overall_of inflate o h pre body [] v1 v2 v1t MP MS AU R F B); auto. change (reached o pre body []) with n.
  destruct MS as ((m & -> & HH) & _). apply header_len in HH. unfold n. rewrite !lenN_app. lia.
Qed.
Print Assumptions C226_overall_refuted.
(** Finding: a file of one frame without blocks has the largest of all bit rates. *)
Theorem C226_empty_refuted : forall inflate o h pre body ape v1 v2 v1t, mo_props o = true -> mac_stream inflate o h pre body ape v1 v2 v1t -> audible h -> 0 < mh_rate h -> mh_final h = 0 ->
  exists f, mac_file_read inflate o (pre ++ body ++ ape ++ v1) = Ok f /\ mac_duration (mc_props f) = 0 /\ mac_audio (mc_props f) = U32_MAX.
Proof.
  intros inflate o h pre body ape v1 v2 v1t MP MS AU R F. destruct (props_of _ _ _ _ _ _ _ _ _ MP MS AU R) as (f & E & P). exists f. split; [exact E|]. cbv zeta in P. rewrite P. unfold mac_samples. rewrite F. change (1 <? 0) with false. cbn [mac_with mac_audio mac_duration].
  assert (Z : f64_length 0 (mh_rate h) = (0, 1)) by reflexivity. rewrite Z. split; [reflexivity|]. unfold mac_kbps. cbn [fst]. change (0 =? 0) with true. cbn iota. destruct MS as ((m & -> & HH) & _). destruct (N.eqb_spec (lenN ($"MAC " ++ m)) 0) as [X|]; [|reflexivity]. rewrite lenN_app in X. change (lenN ($"MAC ")) with 4 in X. lia.
Qed.
Print Assumptions C226_empty_refuted.

(** ** C227: headers that cannot be *)
Definition refused (h : mhead) (e : mac_error) : Prop := (~ (1 <= mh_channels h <= 32) /\ e = GChannels) \/ (1 <= mh_channels h <= 32 /\ mh_frames h = 0 /\ e = GFrames).
Lemma not_verified : forall h e, refused h e -> mh_channels h < 256 -> mac_verify (mh_frames h) (mh_channels h mod 256) = Err e.
Proof.
  intros h e H L. unfold mac_verify. rewrite N.mod_small by lia. destruct H as [[A ->]|(A & B & ->)].
  - destruct (N.leb_spec 1 (mh_channels h)); [destruct (N.leb_spec (mh_channels h) 32); [lia|]|]; reflexivity.
  - destruct (N.leb_spec 1 (mh_channels h)); [|lia]. destruct (N.leb_spec (mh_channels h) 32); [|lia]. rewrite B. reflexivity.
Qed.
Theorem C227_strict_partial : forall inflate o h e pre body ape v1 v2 v1t, mo_props o = true -> mac_stream inflate o h pre body ape v1 v2 v1t -> refused h e -> mh_channels h < 256 -> mo_strict o = true ->
  mac_file_read inflate o (pre ++ body ++ ape ++ v1) = Err e.
Proof.
  intros inflate o h e pre body ape v1 v2 v1t MP MS RE L ST. destruct (whole_file _ _ _ _ _ _ _ _ _ MS) as (t & AT & E). rewrite MP in E. rewrite E. unfold mac_finish. change (mac_channels (fields h)) with (mh_channels h mod 256). rewrite (not_verified h e RE L), ST. reflexivity.
Qed.
Print Assumptions C227_strict_partial.
Theorem C227_tolerant : forall inflate o h e pre body ape v1 v2 v1t, mo_props o = true -> mac_stream inflate o h pre body ape v1 v2 v1t -> refused h e -> mh_channels h < 256 -> mh_depth h < 256 -> mo_strict o = false ->
  exists f, mac_file_read inflate o (pre ++ body ++ ape ++ v1) = Ok f /\ says (mc_props f) h /\ mac_duration (mc_props f) = 0 /\ mac_overall (mc_props f) = 0 /\ mac_audio (mc_props f) = 0.
Proof.
  intros inflate o h e pre body ape v1 v2 v1t MP MS RE L LD ST. destruct (whole_file _ _ _ _ _ _ _ _ _ MS) as (t & AT & E). rewrite MP in E. unfold mac_finish in E. change (mac_channels (fields h)) with (mh_channels h mod 256) in E. rewrite (not_verified h e RE L), ST in E. cbn [bind] in E.
  eexists. split; [exact E|]. unfold says, fields. cbn. rewrite !N.mod_small by auto. auto 10.
Qed.
Print Assumptions C227_tolerant.
(** Finding: of the two bytes with the number of channels, one counts. *)
Theorem C227_channels_refuted : forall inflate o h pre body ape v1 v2 v1t, mo_props o = true -> mac_stream inflate o h pre body ape v1 v2 v1t -> mh_channels h = 257 -> 1 <= mh_frames h ->
  exists f, mac_file_read inflate o (pre ++ body ++ ape ++ v1) = Ok f /\ mac_channels (mc_props f) = 1.
Proof.
  intros inflate o h pre body ape v1 v2 v1t MP MS C F. destruct (whole_file _ _ _ _ _ _ _ _ _ MS) as (t & AT & E). rewrite MP in E. unfold mac_finish in E. change (mac_channels (fields h)) with (mh_channels h mod 256) in E. rewrite C in E. change (257 mod 256) with 1 in E.
  unfold mac_verify in E. change (negb ((1 <=? 1) && (1 <=? 32))) with false in E. cbn iota in E. destruct (N.eqb_spec (mh_frames h) 0); [lia|]. cbn [bind] in E. eexists. split; [exact E|]. cbn [mc_props]. unfold mac_times. change (mac_rate (fields h)) with (mh_rate h). unfold fields. cbn [mac_version mac_rate mac_depth mac_channels]. rewrite C. destruct (0 <? mh_rate h); reflexivity.
Qed.
Print Assumptions C227_channels_refuted.

(** ** C228: any bytes *)
Lemma read_exact_long : forall n r x y, read_exact n r = Some (x, y) -> lenN r = n + lenN y.
Proof. intros n r x y H. apply read_exact_spec in H as [-> L]. rewrite lenN_app. lia. Qed.
Lemma le_long : forall n r v y, read_le n r = Some (v, y) -> lenN r = n + lenN y.
Proof. intros n r v y H. unfold read_le in H. destruct (read_exact n r) as [[b z]|] eqn:E; [|discriminate]. injection H as _ <-. eapply read_exact_long; eauto. Qed.
Ltac step_read := match goal with |- context [or_mac ?e ?x] => destruct x as [[? ?]|] eqn:?; cbn [or_mac bind] end.
Lemma finish_np : forall s p a b c d e, mac_finish s p a b c d e <> Panic.
Proof. intros. unfold mac_finish, mac_verify. destruct (negb _); [destruct s; discriminate|]. destruct (_ =? 0); [destruct s; discriminate|discriminate]. Qed.
Theorem C228_total : forall r sl fl strict, mac_read r sl fl strict <> Panic.
Proof. intros. unfold mac_read. step_read; [|discriminate]. destruct (3980 <=? n); [unfold mac_new|unfold mac_old]; cbv zeta; repeat (step_read; try discriminate); apply finish_np. Qed.
Print Assumptions C228_total.
(** Nothing is made up: the header is there. *)
Theorem C228_complete : forall r sl fl strict p, mac_read r sl fl strict = Ok p -> mac_version p = le_dec (takeN 2 r) /\ (if 3980 <=? mac_version p then 72 else 28) <= lenN r.
Proof.
  intros r sl fl strict p H. assert (FV : forall s q a b c d e, mac_finish s q a b c d e = Ok p -> mac_version p = mac_version q).
  { intros s q a b c d e X. unfold mac_finish in X. destruct (mac_verify b (mac_channels q)); [|destruct s; [discriminate|]|discriminate]; injection X as <-; [unfold mac_times; destruct (0 <? mac_rate q)|]; reflexivity. }
  unfold mac_read in H. destruct (read_le 2 r) as [[v r1]|] eqn:E1; [|discriminate]. cbn [or_mac bind] in H. pose proof (le_long _ _ _ _ E1) as L1.
  assert (VE : v = le_dec (takeN 2 r)). { unfold read_le, read_exact in E1. destruct (2 <=? lenN r); [|discriminate]. injection E1 as <- _. reflexivity. }
  destruct (3980 <=? v) eqn:V; revert H; [unfold mac_new|unfold mac_old]; cbv zeta.
  - step_read; [|discriminate]. apply read_exact_long in Heqo. destruct (52 <? _).
    + match goal with |- context [read_exact 24 (dropN ?k ?x)] => pose proof (lenN_dropN _ k x) as LD end. repeat (step_read; [|discriminate]). intros H. apply FV in H. cbn in H. rewrite H, V. split; [exact VE|]. apply read_exact_long in Heqo0. lia.
    + repeat (step_read; [|discriminate]). intros H. apply FV in H. cbn in H. rewrite H, V. split; [exact VE|]. apply read_exact_long in Heqo0. lia.
  - repeat (step_read; [|discriminate]). intros H. apply FV in H. cbn in H. rewrite H, V. split; [exact VE|]. apply read_exact_long in Heqo. lia.
Qed.
Print Assumptions C228_complete.
(** Without reading of properties nothing after "MAC " matters. *)
Theorem C228_not_asked : forall inflate o pre m ape v1 v2 v1t, let body := $"MAC " ++ m in mac_tags inflate o pre body ape v1 v2 v1t -> 32 <= lenN (body ++ ape) -> mo_props o = false ->
  exists f, mac_file_read inflate o (pre ++ body ++ ape ++ v1) = Ok f /\ mc_props f = mac_default /\ mc_v2 f = v2 /\ mc_v1 f = v1t /\ ape_of o ape (mc_ape f).
Proof. intros inflate o pre m ape v1 v2 v1t body MT L MP. destruct (mac_shape inflate o pre m ape v1 v2 v1t MT L) as (t & AT & E). rewrite MP in E. cbn [bind] in E. eexists. split; [exact E|]. auto. Qed.
Print Assumptions C228_not_asked.

(** ** Examples *)
Definition ex_asked (strict : bool) : mopts := mkMO (mkFO (if strict then Strict else Relaxed) true false) true true 1024.
Definition ex_none (_ : bytes) : option bytes := None.
Definition ex_head (final channels : N) : mhead := mkMH 3990 2000 0 73728 final 2 16 channels 44100.
Definition ex_body (final channels : N) : bytes := $"MAC " ++ new_stream (ex_head final channels) 0 (repeat 0 (N.to_nat 40)) [1; 2] (repeat 9 (N.to_nat 22)).
Example ex_stream : mac_stream ex_none (ex_asked true) (ex_head 14472 2) [] (ex_body 14472 2) [] [] None None /\ audible (ex_head 14472 2) /\ blocks (ex_head 14472 2) = 88200.
Proof.
  split; [|split; [split; cbn; lia|reflexivity]]. split.
  - eexists. split; [reflexivity|]. constructor. repeat split; try reflexivity. cbn. lia.
  - split; [left; auto|]. split; [left; split; [reflexivity|]|]. { vm_compute. intros X. now contradiction X. } split; [left; split; [reflexivity|vm_compute; discriminate]|]. left. reflexivity.
Qed.
Example C223_ex : mac_file_read ex_none (ex_asked true) (ex_body 14472 2) = Ok (mkMacF None None None (mkMac 3990 2000 0 0 44100 16 2)).
Proof. vm_compute. reflexivity. Qed.
Example C224_ex : mac_file_read ex_none (ex_asked false) ($"MAC " ++ old_stream (mkMH 3930 2000 8 73728 441 1 24 1 44100) (repeat 0 8) (repeat 9 (N.to_nat 68)) ++ v1_ex)
  = let? t := match v1_parse v1_ex false with Ok t => Ok t | _ => Panic end in Ok (mkMacF None (Some t) None (mkMac 3930 10 61 80 44100 24 1)).
Proof. vm_compute. reflexivity. Qed.
(** One block less in the last frame: 73728 blocks and one more, 1672 ms, become no time at all. *)
Example C225_ex : match mac_file_read ex_none (ex_asked true) (ex_body 1 2), mac_file_read ex_none (ex_asked true) (ex_body 2 2) with
  | Ok f, Ok g => mac_duration (mc_props f) = 0 /\ mac_duration (mc_props g) = 1672 | _, _ => False end.
Proof. vm_compute. auto. Qed.
(** 100 bytes in 4 ms: 200 kbps, of which the overall bit rate has 152. *)
Example C226_ex : match mac_file_read ex_none (ex_asked true) ($"MAC " ++ new_stream (mkMH 3990 2000 0 73728 176 1 16 2 44100) 0 (repeat 0 (N.to_nat 40)) [] (repeat 9 (N.to_nat 24))) with
  | Ok f => mac_audio (mc_props f) = 200 /\ mac_overall (mc_props f) = 152 | _ => False end.
Proof. vm_compute. auto. Qed.
Example C227_ex : mac_file_read ex_none (ex_asked true) (ex_body 14472 0) = Err GChannels /\ mac_file_read ex_none (ex_asked false) (ex_body 14472 0) = Ok (mkMacF None None None (mkMac 3990 0 0 0 44100 16 0)) /\
  mac_file_read ex_none (ex_asked true) (ex_body 14472 257) = Ok (mkMacF None None None (mkMac 3990 2000 0 0 44100 16 1)).
Proof. vm_compute. auto. Qed.
Example C228_ex : mac_read (takeN 71 (dropN 4 (ex_body 14472 2))) 0 0 false = Err GHeader.
Proof. vm_compute. reflexivity. Qed.
