From Verif Require Import Base BaseLemmas Str StrLemmas Mode PictureModel FileModel MathModel FlacModel FlacThm MpegProof.
From Verif Require Import Mp4Model Mp4WriteModel Mp4Spec Mp4Proof Mp4Proof3 Mp4Proof4 Mp4Proof5 Mp4Proof6 Mp4Proof7 Mp4Proof8 Mp4PropsModel Mp4PropsSpec Mp4PropsProof Mp4PropsProof2 Mp4PropsProof3.

(** ** Sample entries *)
Definition entry_props (e : entry) (p : mp4_props) : mp4_props := set_rate (Some (n_rate e / 2 ^ 16)) (set_channels (Some (n_channels e mod 256)) p).
(** What the entry [f], read up to its end, leads to *)
Definition by_kind (fuel : nat) (data : bytes) (m : pmode) (count q : N) (f : bytes) (p : mp4_props) : res mp4_error mp4_props :=
  if list_eqb f ($"mp4a") then mp4a_properties data m (at_pos data (q + 36)) p
  else if list_eqb f ($"alac") then alac_properties data m (at_pos data (q + 36)) p
  else if list_eqb f ($"fLaC") then flac_properties data m (at_pos data (q + 36)) p
  else stsd_loop fuel data m (count - 1) (at_pos data (q + 64)) (if list_eqb f ($"drms") then set_drm true p else p).
Lemma at_next_sbox : forall data m q f c rest, dropN q data = sbox f c ++ rest -> box_id f -> f <> $"----" -> 8 + lenN c < 2 ^ 32 ->
  next data m (at_pos data q) = Ok (Some (mkAi q (8 + lenN c) false (Fourcc f)), at_pos data (q + 8)) /\ dropN (q + 8) data = c ++ rest.
Proof.
  intros data m q f c rest HD HF HN HL. pose proof HF as [LF _]. split.
  - assert (LB := at_len _ _ _ HD). rewrite lenN_app, lenN_sbox in LB by exact LF.
    unfold sbox in HD. rewrite <- !app_assoc in HD. rewrite (next_box data (at_pos data q) f (8 + lenN c) (c ++ rest) m (mkBd 0 (lenN data - q) (lenN data)) HD HF HN);
      [now rewrite at_adv|lia|reflexivity|cbn [b_rem]; lia|cbn [b_rem]; lia].
  - eapply drop_more with (a := be_enc 4 (8 + lenN c) ++ f); [|rewrite lenN_app, be4_len; lia]. rewrite HD. unfold sbox. now rewrite <- !app_assoc.
Qed.
Lemma entry_step : forall fuel data m count q f e inner rest p, dropN q data = sbox f (entry_bytes e ++ inner) ++ rest -> box_id f -> f <> $"----" ->
  36 + lenN inner < 2 ^ 32 -> entry_ok e -> count <> 0 ->
  stsd_loop (S fuel) data m count (at_pos data q) p = by_kind fuel data m count q f (entry_props e p) /\ dropN (q + 36) data = inner ++ rest.
Proof.
  intros fuel data m count q f e inner rest p HD HF HN HL (E1 & E2 & E3 & E4 & E5) HC.
  assert (LE : lenN (entry_bytes e ++ inner) = 28 + lenN inner) by (unfold entry_bytes; rewrite !lenN_app, !be_enc_len, E1, E2, E4; lia).
  destruct (at_next_sbox data m q f _ rest HD HF HN) as [NX HB]; [lia|]. unfold entry_bytes in HB. rewrite <- !app_assoc in HB.
  cbn [stsd_loop]. replace (count =? 0) with false by lia. rewrite NX. cbn [bind a_ext a_ident]. cbn [negb].
  change 8%Z with (Z.of_N 8). rewrite at_seek_cur. cbn [bind]. apply drop_more with (n := 8) in HB; [|exact E1].
  rewrite (at_own data _ _ _ _ 2 HB) by (auto; lia). cbn [bind]. apply drop_more with (n := 2) in HB; [|apply be_enc_len].
  change (2 <? 0) with false. cbn iota. change 6%Z with (Z.of_N 6). rewrite at_seek_cur. cbn [bind]. apply drop_more with (n := 6) in HB; [|exact E2].
  rewrite (at_own data _ _ _ _ 2 HB) by (auto; lia). cbn [bind]. apply drop_more with (n := 2) in HB; [|apply be_enc_len].
  rewrite at_seek_cur. cbn [bind]. apply drop_more with (n := 6) in HB; [|exact E4].
  rewrite (at_own data _ _ _ _ 4 HB) by (auto; lia). cbn [bind]. apply drop_more with (n := 4) in HB; [|apply be_enc_len].
  change (0 =? 1) with false. change (0 =? 2) with false. cbn iota. cbn [bind]. rewrite N.shiftr_div_pow2.
  replace (q + 8 + 8 + 2 + 6 + 2 + 6 + 4) with (q + 36) in * by lia. split; [|exact HB].
  unfold by_kind. fold (entry_props e p). destruct (list_eqb f ($"mp4a")); [reflexivity|]. destruct (list_eqb f ($"alac")); [reflexivity|]. destruct (list_eqb f ($"fLaC")); [reflexivity|].
  cbn [a_start r_pos at_pos]. replace (q + 36 - q) with 36 by lia. unfold skip_atom. cbn [negb]. change (36 mod 2 ^ 32) with 36. change (Z.of_N 36 - 8)%Z with (Z.of_N 28). fold (at_pos data (q + 36)).
  rewrite at_seek_cur. cbn [bind]. replace (q + 36 + 28) with (q + 64) by lia. reflexivity.
Qed.
Lemma stsd_start : forall count l m p, count < 2 ^ 32 -> read_stsd (stsd_of count l) m p = stsd_loop (S (length (stsd_of count l))) (stsd_of count l) m count (at_pos (stsd_of count l) 8) p /\ dropN 8 (stsd_of count l) = l.
Proof.
  intros count l m p HC. unfold read_stsd. rewrite at_start. change 4%Z with (Z.of_N 4). rewrite at_seek_cur. cbn [bind].
  assert (HD : dropN (0 + 4) (stsd_of count l) = be_enc 4 count ++ l) by (unfold stsd_of; now apply dropN_app).
  rewrite (at_own (stsd_of count l) _ _ _ _ 4 HD) by auto. cbn [bind]. split; [reflexivity|]. apply drop_more with (n := 4) in HD; [exact HD|apply be_enc_len].
Qed.
Lemma stsd_first : forall count f e inner rest m p, 0 < count < 2 ^ 32 -> box_id f -> f <> $"----" -> 36 + lenN inner < 2 ^ 32 -> entry_ok e ->
  let data := stsd_of count (sbox f (entry_bytes e ++ inner) ++ rest) in
  read_stsd data m p = by_kind (length data) data m count 8 f (entry_props e p) /\ dropN 44 data = inner ++ rest.
Proof.
  intros count f e inner rest m p HC HF HN HL HE data. destruct (stsd_start count (sbox f (entry_bytes e ++ inner) ++ rest) m p) as [E HD]; [lia|]. fold data in E, HD.
  rewrite E. destruct (entry_step (length data) data m count 8 f e inner rest p HD HF HN HL HE) as [E2 HD2]; [lia|]. split; [exact E2|exact HD2].
Qed.

(** ** Descriptors *)
Lemma size_read : forall a n data p b rest, dropN p data = (a ++ [b]) ++ rest -> (length a < n)%nat -> Forall (fun x => 0x80 <= x < 0x100) a -> b < 0x80 ->
  size_bytes n data (at_pos data p) = Ok (at_pos data (p + lenN (a ++ [b]))).
Proof.
  induction a as [|x a IH]; intros n data p b rest HD HN HA HB; (destruct n as [|n]; [inversion HN|]); cbn [size_bytes].
  - rewrite (at_be_raw data _ [b] _ 1 HD) by reflexivity. cbn [bind]. change (be_dec [b]) with (b + 256 * 0). rewrite N.mul_0_r, N.add_0_r.
    assert (E : N.land b 128 = 0).
    { change 128 with (2 ^ 7). apply N.bits_inj. intros i. rewrite N.land_spec, N.pow2_bits_eqb, N.bits_0. destruct (N.eqb_spec 7 i); [|now rewrite Bool.andb_false_r]. subst i.
      rewrite N.testbit_eqb, N.div_small by exact HB. reflexivity. }
    rewrite E. reflexivity.
  - inversion HA as [|? ? HX HA']; subst. rewrite <- app_assoc in HD. change ((x :: a) ++ [b] ++ rest) with ([x] ++ a ++ [b] ++ rest) in HD.
    rewrite (at_be_raw data _ [x] _ 1 HD) by reflexivity. cbn [bind]. change (be_dec [x]) with (x + 256 * 0). rewrite N.mul_0_r, N.add_0_r.
    replace (N.land x 128 =? 0) with false.
    + rewrite (IH n data (p + 1) b rest); auto; [|rewrite <- app_assoc; apply drop_more with (n := 1) in HD; [exact HD|reflexivity]|cbn in HN; lia].
      cbn [app]. rewrite lenN_cons. do 2 f_equal. lia.
    + symmetry. apply N.eqb_neq. intros E. assert (T : N.testbit (N.land x 128) 7 = true).
      { rewrite N.land_spec. change (N.testbit 128 7) with true. rewrite Bool.andb_true_r, N.testbit_eqb. change (2 ^ 7) with 128. replace (x / 128) with 1 by lia. reflexivity. }
      rewrite E in T. discriminate.
Qed.
Lemma descriptor_read : forall data p tag size rest, dropN p data = [tag] ++ size ++ rest -> desc_size size -> descriptor data (at_pos data p) = Ok (tag, at_pos data (p + 1 + lenN size)).
Proof.
  intros data p tag size rest HD (a & b & -> & L & HA & HB). unfold descriptor. rewrite (at_be_raw data _ [tag] _ 1 HD) by reflexivity. cbn [bind].
  apply drop_more with (n := 1) in HD; [|reflexivity]. rewrite (size_read a 4 data _ b rest HD) by (auto; unfold lenN in L; lia). cbn [bind].
  change (be_dec [tag]) with (tag + 256 * 0). rewrite N.mul_0_r, N.add_0_r. reflexivity.
Qed.

(** ** The decoder's configuration *)
Lemma be_enc_split : forall k n v, be_enc (k + n) v = be_enc k (v / 256 ^ N.of_nat n) ++ be_enc n v.
Proof.
  intros k n. revert k. induction n as [|n IH]; intros k v.
  - rewrite Nat.add_0_r. cbn [be_enc le_enc rev]. rewrite app_nil_r. f_equal. change (256 ^ N.of_nat 0) with 1. now rewrite N.div_1_r.
  - replace (k + S n)%nat with (S (k + n)) by lia. unfold be_enc in *. cbn [le_enc rev]. rewrite IH, <- app_assoc. do 3 f_equal.
    rewrite N.div_div by (try apply N.pow_nonzero; lia). f_equal. rewrite Nat2N.inj_succ, N.pow_succ_r'. lia.
Qed.
Definition known_type (t : N) : bool := existsb (N.eqb t) OBJECT_TYPES.
(** Two bytes with the fields 5, 4, 4 *)
Lemma two_bytes : forall a b type index conf x, type < 32 -> index < 16 -> conf < 16 -> x < 8 -> a = type * 8 + index / 2 -> b = (index mod 2) * 128 + conf * 8 + x ->
  N.shiftr a 3 = type /\ N.lor (N.shiftl (N.land a 7) 1) (N.shiftr b 7) = index /\ N.land (N.shiftr b 3) 15 = conf.
Proof.
  intros a b type index conf x HT HI HC HX -> ->. split; [|split].
  - rewrite N.shiftr_div_pow2. change (2 ^ 3) with 8. lia.
  - change 7 with (N.ones 3) at 1. rewrite N.land_ones. change (2 ^ 3) with 8. rewrite N.shiftr_div_pow2, N.shiftl_mul_pow2. change (2 ^ 7) with 128. change (2 ^ 1) with 2.
    replace ((type * 8 + index / 2) mod 8) with (index / 2) by lia. replace ((index mod 2 * 128 + conf * 8 + x) / 128) with (index mod 2) by lia.
    assert (D : N.land (index / 2 * 2) (index mod 2) = 0).
    { apply N.bits_inj. intros i. rewrite N.land_spec, N.bits_0. destruct (N.eq_dec i 0) as [->|NZ].
      - replace (index / 2 * 2) with (2 * (index / 2)) by lia. rewrite N.testbit_even_0. reflexivity.
      - apply Bool.andb_false_iff. right. rewrite N.testbit_eqb. rewrite N.div_small; [reflexivity|]. apply N.lt_le_trans with 2; [lia|]. change 2 with (2 ^ 1) at 1. apply N.pow_le_mono_r; lia. }
    rewrite <- N.lxor_lor by exact D. rewrite <- N.add_nocarry_lxor by exact D. lia.
  - change 15 with (N.ones 4). apply (field _ 3 4 (index mod 2) conf x); [change (2 ^ (3 + 4)) with 128; change (2 ^ 3) with 8; lia|change (2 ^ 4) with 16; lia|change (2 ^ 3) with 8; lia].
Qed.
Definition config_props (c : aconfig) (p : mp4_props) : mp4_props :=
  let p := set_rate (Some (nth (N.to_nat (c_index c)) SAMPLE_RATES 0)) (set_type (Some (c_type c)) p) in if 0 <? c_conf c then set_channels (Some (c_conf c)) p else p.
Lemma config_read : forall data q c tail l rest p, dropN q data = l ++ rest -> aconfig_ok c -> c_type c < 31 -> known_type (c_type c) = true -> c_index c <> 15 -> config_bytes c tail l ->
  specific_config data (at_pos data q) p = Ok (config_props c p).
Proof.
  intros data q c tail l rest p HD (HT & _ & HI & HR & HC) HT' HK HX HB. unfold config_bytes, config_bits in HB. replace (c_index c =? 15) with false in HB by lia. replace (c_type c <? 32) with true in HB by lia.
  destruct tail as [t v]. cbn [put fst snd] in HB. destruct HB as (LB & TB & EL). set (V := c_type c * 2 ^ (4 + (4 + t)) + (c_index c * 2 ^ (4 + t) + (c_conf c * 2 ^ t + v))) in EL.
  assert (exists n, length l = S (S n)) as (n & LN) by (exists (length l - 2)%nat; unfold lenN in LB; lia).
  assert (T : t = 3 + 8 * N.of_nat n) by (unfold lenN in LB; lia). rewrite LN in EL. change (S (S n)) with (2 + n)%nat in EL. rewrite be_enc_split in EL.
  set (x := v / 256 ^ N.of_nat n). set (W := V / 256 ^ N.of_nat n) in EL.
  assert (P8 : 256 ^ N.of_nat n = 2 ^ (8 * N.of_nat n)) by (rewrite N.pow_mul_r; reflexivity).
  assert (HV : x < 8). { unfold x. apply N.div_lt_upper_bound; [apply N.pow_nonzero; lia|]. rewrite P8. rewrite T, N.pow_add_r in TB. change (2 ^ 3) with 8 in TB. lia. }
  assert (EW : W = (c_type c * 256 + c_index c * 16 + c_conf c) * 8 + x).
  { unfold W, V, x. rewrite T. replace (c_type c * 2 ^ (4 + (4 + (3 + 8 * N.of_nat n))) + (c_index c * 2 ^ (4 + (3 + 8 * N.of_nat n)) + (c_conf c * 2 ^ (3 + 8 * N.of_nat n) + v)))
      with (((c_type c * 256 + c_index c * 16 + c_conf c) * 8) * 256 ^ N.of_nat n + v).
    - apply N.div_add_l. apply N.pow_nonzero. lia.
    - rewrite P8, !N.pow_add_r. change (2 ^ 4) with 16. change (2 ^ 3) with 8. lia. }
  unfold specific_config. rewrite EL in HD. change (be_enc 2 W) with ([(W / 256) mod 256] ++ [W mod 256]) in HD. rewrite <- !app_assoc in HD.
  rewrite (at_own_raw data _ _ _ 1 HD) by reflexivity. cbn [bind]. apply drop_more with (n := 1) in HD; [|reflexivity].
  rewrite (at_own_raw data _ _ _ 1 HD) by reflexivity. cbn [bind].
  set (a := be_dec [(W / 256) mod 256]). set (b := be_dec [W mod 256]).
  destruct (two_bytes a b (c_type c) (c_index c) (c_conf c) x) as (F1 & F2 & F3); auto; try lia.
  { change a with ((W / 256) mod 256 + 256 * 0). lia. } { change b with (W mod 256 + 256 * 0). lia. }
  rewrite F1. replace (c_type c =? 31) with false by lia. cbv zeta. rewrite F2, F3. fold (known_type (c_type c)). rewrite HK. cbn [negb]. replace (c_index c =? 15) with false by lia. cbn [bind].
  replace (c_type c =? 36) with false by lia. reflexivity.
Qed.
(** ** mp4a *)
Definition mp4a_props (x : stream) (c : aconfig) (p : mp4_props) : mp4_props :=
  let p := config_props c (set_codec (codec_of (x_codec x)) (set_codec (Some AAC) p)) in
  if (0 <? x_average x) || (q_duration p =? 0) then set_audio (Some (x_average x / 1000)) p else p.
Lemma mp4a_step : forall data m q x config rest p, dropN q data = sbox ($"esds") (esds_bytes x config) ++ rest -> lenN (esds_bytes x config) + 8 < 2 ^ 32 -> stream_ok x ->
  exists q' rest', dropN q' data = config ++ rest' /\
  mp4a_properties data m (at_pos data q) p =
    let? p := specific_config data (at_pos data q') (set_codec (codec_of (x_codec x)) (set_codec (Some AAC) p)) in
    Ok (if (0 <? x_average x) || (q_duration p =? 0) then set_audio (Some (x_average x / 1000)) p else p).
Proof.
  intros data m q x config rest p HD HL (S3 & LI & S4 & XC & LBU & XA & S5).
  destruct (at_next_sbox data m q ($"esds") _ rest HD) as [NX HE]; [idok|discriminate|lia|]. unfold mp4a_properties. rewrite NX. cbn [a_ident]. rewrite is_fourcc_refl. cbn [negb].
  unfold esds_bytes in HE. rewrite <- !app_assoc in HE.
  rewrite (at_own_raw data _ _ _ 4 HE) by reflexivity. cbn [bind]. change (be_dec [0; 0; 0; 0]) with 0. cbn [N.eqb negb]. apply drop_more with (n := 4) in HE; [|reflexivity].
  rewrite (descriptor_read data _ 3 _ _ HE S3). cbn [bind N.eqb Pos.eqb negb]. apply drop_more with (n := 1) in HE; [|reflexivity]. apply drop_more with (n := lenN (x_size3 x)) in HE; [|reflexivity].
  change 3%Z with (Z.of_N 3). rewrite at_seek_cur. cbn [bind]. apply drop_more with (n := 3) in HE; [|exact LI].
  rewrite (descriptor_read data _ 4 _ _ HE S4). cbn [bind N.eqb Pos.eqb negb]. apply drop_more with (n := 1) in HE; [|reflexivity]. apply drop_more with (n := lenN (x_size4 x)) in HE; [|reflexivity].
  rewrite (at_own_raw data _ [x_codec x] _ 1 HE) by reflexivity. cbn [bind]. change (be_dec [x_codec x]) with (x_codec x + 256 * 0). rewrite N.mul_0_r, N.add_0_r. apply drop_more with (n := 1) in HE; [|reflexivity].
  change 8%Z with (Z.of_N 8). rewrite at_seek_cur. cbn [bind]. apply drop_more with (n := 8) in HE; [|exact LBU].
  rewrite (at_own data _ _ _ _ 4 HE) by auto. cbn [bind]. apply drop_more with (n := 4) in HE; [|apply be_enc_len].
  rewrite (descriptor_read data _ 5 _ _ HE S5). cbn [bind N.eqb Pos.eqb]. apply drop_more with (n := 1) in HE; [|reflexivity]. apply drop_more with (n := lenN (x_size5 x)) in HE; [|reflexivity].
  eexists _, _. split; [exact HE|]. reflexivity.
Qed.
Lemma mp4a_read : forall data m q x config rest c tail p, dropN q data = sbox ($"esds") (esds_bytes x config) ++ rest -> lenN (esds_bytes x config) + 8 < 2 ^ 32 -> stream_ok x ->
  aconfig_ok c -> c_type c < 31 -> known_type (c_type c) = true -> c_index c <> 15 -> config_bytes c tail config ->
  mp4a_properties data m (at_pos data q) p = Ok (mp4a_props x c p).
Proof.
  intros data m q x config rest c tail p HD HL HS HC HT HK HX HB. destruct (mp4a_step data m q x config rest p HD HL HS) as (q' & rest' & HE & ->).
  rewrite (config_read data _ c tail config _ _ HE HC HT HK HX HB). reflexivity.
Qed.
(** ** ALAC *)
Definition alac_props (a : alac) (p : mp4_props) : mp4_props :=
  set_rate (Some (l_rate a)) (set_audio (Some (l_average a / 1000)) (set_channels (Some (l_channels a)) (set_depth (Some (l_depth a)) (set_codec (Some ALAC) p)))).
Lemma byte_raw : forall b, be_dec [b] = b. Proof. intros. change (be_dec [b]) with (b + 256 * 0). lia. Qed.
Lemma alac_read : forall data m q a rest p, lenN data = 80 -> dropN q data = sbox ($"alac") (alac_bytes a) ++ rest -> alac_ok a ->
  alac_properties data m (at_pos data q) p = Ok (alac_props a p).
Proof.
  intros data m q a rest p L80 HD (L1 & L2 & L3 & L4 & L5 & L6 & L7 & L8).
  assert (LA : lenN (alac_bytes a) = 28) by (unfold alac_bytes; rewrite !lenN_app, !be_enc_len, L1, L2, L4, L6; reflexivity).
  destruct (at_next_sbox data m q ($"alac") _ rest HD) as [NX HE]; [idok|discriminate|lia|].
  unfold alac_properties. rewrite L80. cbn [N.eqb Pos.eqb negb]. rewrite NX. cbn [a_ident]. rewrite is_fourcc_refl. cbn [negb]. unfold alac_bytes in HE. rewrite <- !app_assoc in HE.
  change 9%Z with (Z.of_N 9). rewrite at_seek_cur. cbn [bind]. rewrite app_assoc in HE. apply drop_more with (n := 9) in HE; [|rewrite lenN_app; lia].
  rewrite (at_own_raw data _ [l_depth a] _ 1 HE) by reflexivity. cbn [bind]. rewrite byte_raw. apply drop_more with (n := 1) in HE; [|reflexivity].
  change 3%Z with (Z.of_N 3). rewrite at_seek_cur. cbn [bind]. apply drop_more with (n := 3) in HE; [|exact L4].
  rewrite (at_own_raw data _ [l_channels a] _ 1 HE) by reflexivity. cbn [bind]. rewrite byte_raw. apply drop_more with (n := 1) in HE; [|reflexivity].
  change 6%Z with (Z.of_N 6). rewrite at_seek_cur. cbn [bind]. apply drop_more with (n := 6) in HE; [|exact L6].
  rewrite (at_own data _ _ _ _ 4 HE) by auto. cbn [bind]. apply drop_more with (n := 4) in HE; [|apply be_enc_len].
  rewrite (at_own data _ _ _ _ 4 HE) by auto. cbn [bind]. reflexivity.
Qed.
(** ** FLAC *)
Definition dfla_props (i : info) (p : mp4_props) : mp4_props :=
  set_channels (Some (i_channels i)) (set_depth (Some (i_depth i)) (set_rate (Some (i_rate i)) (set_codec (Some FLAC) p))).
Lemma dfla_read : forall data m q i last more rest p, dropN q data = sbox ($"dfLa") (dfla_bytes i last more) ++ rest -> lenN (dfla_bytes i last more) + 8 < 2 ^ 32 -> info_ok i ->
  flac_properties data m (at_pos data q) p = Ok (dfla_props i p).
Proof.
  intros data m q i last more rest p HD HL (I1 & I2 & I3 & I4 & I5 & I6).
  assert (LI : lenN (info_bytes i) = 34) by (unfold info_bytes; rewrite !lenN_app, !be_enc_len, I1, I6; reflexivity).
  assert (LD : lenN (dfla_bytes i last more) = 42 + lenN more) by (unfold dfla_bytes; rewrite !lenN_app, LI, be_enc_len; change (lenN [0; 0; 0; 0]) with 4; change (lenN [_]) with 1; lia).
  destruct (at_next_sbox data m q ($"dfLa") _ rest HD) as [NX HE]; [idok|discriminate|lia|].
  unfold flac_properties. rewrite NX. cbn [bind a_ident a_len]. rewrite is_fourcc_refl. cbn [negb]. unfold dfla_bytes in HE. rewrite <- !app_assoc in HE.
  change 4%Z with (Z.of_N 4). rewrite at_seek_cur. cbn [bind]. apply drop_more with (n := 4) in HE; [|reflexivity]. rewrite LD. unfold msub. replace (8 + (42 + lenN more) <? 12) with false by lia. cbn [bind].
  replace (8 + (42 + lenN more) - 12 <? 18) with false by lia.
  rewrite (at_be_raw data _ _ _ 1 HE) by reflexivity. cbn [bind]. apply drop_more with (n := 1) in HE; [|reflexivity].
  rewrite (at_be data _ _ _ _ 3 HE) by (auto; lia). cbn [bind]. apply drop_more with (n := 3) in HE; [|apply be_enc_len].
  rewrite (at_exact data _ _ _ 34 HE LI). cbn [bind].
  destruct (C94_properties (i_blocks i) (i_rate i) (i_channels i) (i_depth i) (i_total i) (i_md5 i) [] 0 0 I1 I6 I2 I3 I4 I5) as (d & a & b & E & _); [lia|].
  rewrite app_nil_r in E. unfold info_bytes. rewrite E. reflexivity.
Qed.
(** Types from 32 to 39: a 31, six bits, then as before *)
Lemma config_read_ext : forall data q c tail l rest p, dropN q data = l ++ rest -> aconfig_ok c -> 32 <= c_type c < 40 -> c_type c <> 36 -> c_index c <> 15 -> config_bytes c tail l ->
  exists p', specific_config data (at_pos data q) p = Ok p' /\ q_type p' = Some (c_type c) /\ q_rate p' = Some (nth (N.to_nat (c_index c)) SAMPLE_RATES 0) /\ q_codec p' = q_codec p /\ q_duration p' = q_duration p /\ q_drm p' = q_drm p /\
    (c_conf c = 0 -> q_channels p' = q_channels p).
Proof.
  intros data q c tail l rest p HD (HT & _ & HI & HR & HC) HT' HK HX HB. unfold config_bytes, config_bits in HB. replace (c_index c =? 15) with false in HB by lia. replace (c_type c <? 32) with false in HB by lia.
  destruct tail as [t v]. cbn [put fst snd] in HB. destruct HB as (LB & TB & EL). set (V := 31 * 2 ^ (6 + (4 + (4 + t))) + ((c_type c - 32) * 2 ^ (4 + (4 + t)) + (c_index c * 2 ^ (4 + t) + (c_conf c * 2 ^ t + v)))) in EL.
  assert (exists n, length l = S (S (S n))) as (n & LN) by (exists (length l - 3)%nat; unfold lenN in LB; lia).
  assert (T : t = 5 + 8 * N.of_nat n) by (unfold lenN in LB; lia). rewrite LN in EL. change (S (S (S n))) with (3 + n)%nat in EL. rewrite be_enc_split in EL.
  set (x := v / 256 ^ N.of_nat n). set (W := V / 256 ^ N.of_nat n) in EL.
  assert (P8 : 256 ^ N.of_nat n = 2 ^ (8 * N.of_nat n)) by (rewrite N.pow_mul_r; reflexivity).
  assert (HV : x < 32). { unfold x. apply N.div_lt_upper_bound; [apply N.pow_nonzero; lia|]. rewrite P8. rewrite T, N.pow_add_r in TB. change (2 ^ 5) with 32 in TB. lia. }
  assert (EW : W = (31 * 16384 + (c_type c - 32) * 256 + c_index c * 16 + c_conf c) * 32 + x).
  { unfold W, V, x. rewrite T.
    replace (31 * 2 ^ (6 + (4 + (4 + (5 + 8 * N.of_nat n)))) + ((c_type c - 32) * 2 ^ (4 + (4 + (5 + 8 * N.of_nat n))) + (c_index c * 2 ^ (4 + (5 + 8 * N.of_nat n)) + (c_conf c * 2 ^ (5 + 8 * N.of_nat n) + v))))
      with (((31 * 16384 + (c_type c - 32) * 256 + c_index c * 16 + c_conf c) * 32) * 256 ^ N.of_nat n + v).
    - apply N.div_add_l. apply N.pow_nonzero. lia.
    - rewrite P8, !N.pow_add_r. change (2 ^ 6) with 64. change (2 ^ 4) with 16. change (2 ^ 5) with 32. lia. }
  unfold specific_config. rewrite EL in HD. change (be_enc 3 W) with ([(W / 256 / 256) mod 256] ++ [(W / 256) mod 256] ++ [W mod 256]) in HD. rewrite <- !app_assoc in HD.
  rewrite (at_own_raw data _ _ _ 1 HD) by reflexivity. cbn [bind]. apply drop_more with (n := 1) in HD; [|reflexivity].
  rewrite (at_own_raw data _ _ _ 1 HD) by reflexivity. cbn [bind]. apply drop_more with (n := 1) in HD; [|reflexivity]. rewrite !byte_raw.
  replace ((W / 256 / 256) mod 256) with 248 by lia. change (N.shiftr 248 3 =? 31) with true. cbv zeta. cbn iota. change (N.land 248 7) with 0. rewrite N.lor_0_l.
  set (b := (W / 256) mod 256). assert (EB : b = (c_type c - 32) * 32 + c_index c * 2 + c_conf c / 8) by (unfold b; lia).
  replace (N.shiftr b 5) with (c_type c - 32) by (rewrite N.shiftr_div_pow2; change (2 ^ 5) with 32; lia). replace (32 + (c_type c - 32)) with (c_type c) by lia.
  assert (FI : N.land (N.shiftr b 1) 15 = c_index c).
  { change 15 with (N.ones 4). apply (field _ 1 4 (c_type c - 32) (c_index c) (c_conf c / 8)); [change (2 ^ (1 + 4)) with 32; change (2 ^ 1) with 2; lia|change (2 ^ 4) with 16; lia|change (2 ^ 1) with 2; lia]. }
  rewrite FI. assert (KT : existsb (N.eqb (c_type c)) OBJECT_TYPES = true).
  { assert (X : c_type c = 32 \/ c_type c = 33 \/ c_type c = 34 \/ c_type c = 35 \/ c_type c = 37 \/ c_type c = 38 \/ c_type c = 39) by lia. destruct X as [-> |[-> |[-> |[-> |[-> |[-> | ->]]]]]]; reflexivity. }
  rewrite KT. cbn [negb]. replace (c_index c =? 15) with false by lia. rewrite (at_own_raw data _ _ _ 1 HD) by reflexivity. cbn [bind]. rewrite byte_raw. replace (c_type c =? 36) with false by lia.
  set (ch := N.lor (N.land b 1) (N.land (W mod 256) 224)). exists (if 0 <? ch then set_channels (Some ch) (set_rate (Some (nth (N.to_nat (c_index c)) SAMPLE_RATES 0)) (set_type (Some (c_type c)) p)) else set_rate (Some (nth (N.to_nat (c_index c)) SAMPLE_RATES 0)) (set_type (Some (c_type c)) p)).
  split; [reflexivity|]. split; [now destruct (0 <? ch)|]. split; [now destruct (0 <? ch)|]. split; [now destruct (0 <? ch)|]. split; [now destruct (0 <? ch)|]. split; [now destruct (0 <? ch)|].
  intros Z. replace ch with 0; [reflexivity|]. symmetry. unfold ch. apply N.lor_eq_0_iff.
  assert (B1 : N.land b 1 = 0) by (change 1 with (N.ones 1); rewrite N.land_ones; change (2 ^ 1) with 2; lia).
  split; [exact B1|]. replace (W mod 256) with x by lia. apply N.bits_inj. intros i. rewrite N.land_spec, N.bits_0. destruct (N.ltb_spec i 5) as [LI|GI].
  - assert (N.testbit 224 i = false) as ->; [|apply Bool.andb_false_r]. assert (X : i = 0 \/ i = 1 \/ i = 2 \/ i = 3 \/ i = 4) by lia. destruct X as [-> |[-> |[-> |[-> | ->]]]]; reflexivity.
  - assert (N.testbit x i = false) as ->; [|reflexivity]. rewrite N.testbit_eqb, N.div_small; [reflexivity|]. apply N.lt_le_trans with (2 ^ 5); [exact HV|]. apply N.pow_le_mono_r; lia.
Qed.
