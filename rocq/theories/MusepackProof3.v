(** Numbers of Musepack files, and what cannot panic. *)
From Verif Require Import BaseLemmas StrLemmas MathModel MathThm Id3v1Model Id3v1Thm Id3v2HeaderModel Id3v2HeaderProof Id3v2HeaderThm FrameReadModel FrameTotalThm ApeModel ApeThm ApeThm2 FlacThm AiffModel AiffProof3 MpegModel MpegProof MpegProof3 MpegProof5 F64Proof2 TailProof.
From Verif Require Export MusepackProof2.
From Verif Require Import Base Str.

Lemma e53_val : E53 = 9007199254740992. Proof. reflexivity. Qed.
(** ** Version 7: the f64 duration *)
Lemma length7_near : forall h, head7_ok h -> d_frames h <> 0 -> let d := to_int U64_MAX (length7 h) in let r := mpc_rate (d_rate h) in
  d * r <= d_frames h * 1152000 + 12 /\ d_frames h * 1152000 < (d + 1) * r + 13.
Proof.
  intros h OK NZ d r. destruct OK as (_ & FR & _ & _ & _ & RA & _). assert (RP := rate_pos (d_rate h) RA). fold r in RP.
  assert (A : near (of_int 1152) 1152 1 0) by (apply near_int; reflexivity). assert (B : near (of_int r) r 1 0) by (apply near_int; lia). assert (C : near (of_int (d_frames h)) (d_frames h) 1 0) by (apply near_int; lia).
  assert (E := e53_val). destruct (near_div _ _ _ _ _ _ _ _ A B) as [D _]; [lia|lia|lia|]. change (0 + 0 + 4) with 4 in D. rewrite N.mul_1_l, N.mul_1_r in D.
  destruct (near_mul _ _ _ _ _ _ _ _ C D) as [F _]; [lia|lia|lia|]. change (0 + 4 + 4) with 8 in F. rewrite N.mul_1_l in F.
  assert (K : near (1000, 1) 1000 1 0) by (apply near_lit; reflexivity). destruct (near_mul _ _ _ _ _ _ _ _ F K) as [G _]; [lia|lia|lia|]. change (8 + 0 + 4) with 12 in G. rewrite N.mul_1_r in G.
  change (near (length7 h) (d_frames h * 1152 * 1000) r 12) in G. set (p := d_frames h * 1152 * 1000) in *. assert (P : p = d_frames h * 1152000) by (unfold p; lia). assert (PB : p < E53) by lia.
  pose proof (near_floor _ _ _ _ U64_MAX G) as NF. cbv zeta in NF. fold d in NF. destruct NF as [N1 N2]. { unfold U64_MAX. assert (r * (18446744073709551615 + 1) * E53 >= 18446744073709551616 * 32000 * E53) by (apply N.le_ge; apply N.mul_le_mono_r; lia). lia. }
  rewrite <- P. clearbody p d r. clear - N1 N2 PB E RP. rewrite E in *. split.
  - assert (d * r * 9007199254740992 < (p + 13) * 9007199254740992) by lia. apply N.mul_lt_mono_pos_r in H; lia.
  - set (m := (d + 1) * r) in *. clearbody m. assert (M : p * 9007199254740992 < (m + 13) * 9007199254740992 \/ 9007199254740992 <= m) by (destruct (N.lt_ge_cases m 9007199254740992); [left; lia|right; lia]).
    destruct M as [M|M]; [apply N.mul_lt_mono_pos_r in M; lia|lia].
Qed.
(** ** Versions 4 to 6: the f64 bit rate *)
Lemma rate6_near : forall h sl, head6_ok h -> frames6 h <> 0 -> 0 < sl -> sl < 2 ^ 40 -> sl * 8 * 44100 < U32_MAX * (1152 * (1152 * frames6 h - 576)) ->
  let b := rate6 h sl in let q := 1152 * (1152 * frames6 h - 576) in b * q <= sl * 352800 + 2 ^ 10 /\ sl * 352800 < (b + 1) * q + 2 ^ 10.
Proof.
  intros h sl OK NZ S0 SL LIM b q. assert (FB : frames6 h < 2 ^ 32). { destruct OK as (_ & _ & _ & _ & FR & _). unfold frames6. revert FR. destruct (b_version h =? 4), (b_version h =? 6); lia. }
  set (pcm := 1152 * frames6 h - 576) in *. assert (PC : 576 <= pcm /\ pcm < 2 ^ 43) by (unfold pcm; lia). assert (E := e53_val).
  assert (A : near (of_int sl) sl 1 0) by (apply near_int; lia). assert (A8 : near (8, 1) 8 1 0) by (apply near_lit; reflexivity). assert (B : near (of_int 44100) 44100 1 0) by (apply near_int; reflexivity).
  assert (C : near (of_int pcm) pcm 1 0) by (apply near_int; lia). assert (D : near (of_int 1152) 1152 1 0) by (apply near_int; reflexivity).
  destruct (near_mul _ _ _ _ _ _ _ _ A A8) as [F _]; [lia|lia|lia|]. destruct (near_mul _ _ _ _ _ _ _ _ F B) as [G _]; [lia|lia|lia|]. destruct (near_div _ _ _ _ _ _ _ _ G C) as [H _]; [lia|lia|lia|]. destruct (near_div _ _ _ _ _ _ _ _ H D) as [I _]; [lia|lia|lia|].
  change (0 + 0 + 4 + 0 + 4 + 0 + 4 + 0 + 4) with 16 in I. rewrite !N.mul_1_r, !N.mul_1_l in I. rewrite (N.mul_comm pcm 1152) in I. fold q in I.
  pose proof (near_floor _ _ _ _ U32_MAX I) as NF. cbv zeta in NF. change (to_int U32_MAX _) with b in NF. set (p := sl * 8 * 44100) in *. assert (P : p = sl * 352800) by (unfold p; lia). assert (PB : p < 2 ^ 59) by lia. assert (QM : q < 2 ^ 53) by (unfold q, pcm; lia).
  destruct NF as [N1 N2]. { assert (QB : U32_MAX * q + q <= (U32_MAX + 1) * q) by lia. assert (Q1 : 1152 * 576 <= q) by (unfold q; lia). assert (p + q <= (U32_MAX + 1) * q) by lia. rewrite E. assert (p * 16 <= 2 ^ 63) by lia.
    assert ((p + q) * 9007199254740992 <= (U32_MAX + 1) * q * 9007199254740992) by (apply N.mul_le_mono_r; lia). lia. }
  rewrite <- P. clearbody p b q. clear - N1 N2 PB QM E. rewrite E in *. change (2 ^ 10) with 1024. change (2 ^ 59) with 576460752303423488 in PB. change (2 ^ 53) with 9007199254740992 in QM.
  assert (L1 : b * q <= p + 1024). { set (m := b * q) in *. clearbody m. lia. }
  split; [exact L1|]. replace ((b + 1) * q) with (b * q + q) in * by lia. set (m := b * q) in *. clearbody m. lia.
Qed.
(** ** Panics *)
Lemma io_np : forall A (x : option A), io x <> Panic. Proof. now intros A []. Qed.
Lemma size_spec : forall n count acc r, match read_size n count acc r with Ok (v, c, rest) => v + 1 <= (acc + 1) * 128 ^ N.of_nat n /\ lenN rest < lenN r | Err _ => True | Panic => False end.
Proof.
  induction n as [|n IH]; intros count acc r; destruct r as [|c r]; cbn [read_size]; auto. assert (LL : N.land c 0x7F < 128). { change 0x7F with (N.ones 7). rewrite N.land_ones. now apply N.mod_lt. }
  rewrite Nat2N.inj_succ, N.pow_succ_r'. assert (P : 1 <= 128 ^ N.of_nat n). { pose proof (N.pow_nonzero 128 (N.of_nat n) ltac:(discriminate)). lia. } set (q := 128 ^ N.of_nat n) in *.
  assert (M : (acc * 128 + N.land c 0x7F + 1) * q <= (acc + 1) * (128 * q)). { replace ((acc + 1) * (128 * q)) with ((acc + 1) * 128 * q) by lia. apply N.mul_le_mono_r. lia. }
  destruct (N.land c 0x80 =? 0).
  - split; [|rewrite lenN_cons; lia]. apply N.le_trans with (2 := M). replace (acc * 128 + N.land c 127 + 1) with ((acc * 128 + N.land c 127 + 1) * 1) at 1 by lia. apply N.mul_le_mono_l. exact P.
  - specialize (IH (count + 1) (acc * 128 + N.land c 0x7F) r). destruct (read_size n (count + 1) (acc * 128 + N.land c 0x7F) r) as [[[v k] rest]| |]; auto. destruct IH as [A B]. fold q in A. rewrite lenN_cons. split; lia.
Qed.
Lemma next_spec : forall r, match next_packet r with Ok (_, capacity, _, after) => capacity < 2 ^ 63 /\ (capacity + lenN after < lenN r \/ after = []) /\ lenN after < lenN r | Err _ => True | Panic => False end.
Proof.
  intros r. unfold next_packet. destruct (read_exact 2 r) as [[key r1]|] eqn:E; [|exact I]. cbn [io bind]. apply read_exact_spec in E as [E L]. destruct (negb _); [exact I|]. pose proof (size_spec 9 0 0 r1) as S.
  destruct (read_size 9 0 0 r1) as [[[v c] r2]| |]; cbn [bind]; auto. destruct S as [A B]. change ((0 + 1) * 128 ^ N.of_nat 9) with (2 ^ 63) in A. assert (LR : lenN r = 2 + lenN r1) by (rewrite E, lenN_app; lia).
  split; [lia|]. rewrite lenN_dropN. split; [|lia]. destruct (N.le_gt_cases (v - (2 + c)) (lenN r2)); [left; lia|right]. apply dropN_all. lia.
Qed.
Lemma sh_np : forall r, read_sh r <> Panic.
Proof.
  intros r. unfold read_sh. destruct (read_be 4 r) as [[a r1]|]; [|discriminate]. cbn [io bind]. destruct (read_u8 r1) as [[b r2]|]; [|discriminate]. cbn [io bind].
  pose proof (size_spec 9 0 0 r2) as S1. destruct (read_size 9 0 0 r2) as [[[v c] r3]| |]; [|discriminate|contradiction]. cbn [bind]. pose proof (size_spec 9 0 0 r3) as S2. destruct (read_size 9 0 0 r3) as [[[v2 c2] r4]| |]; [|discriminate|contradiction]. cbn [bind].
  destruct (read_u8 r4) as [[b1 r5]|]; [|discriminate]. cbn [io bind]. destruct (read_u8 r5) as [[b2 r6]|]; discriminate.
Qed.
Lemma rg_np : forall r, read_rg r <> Panic.
Proof.
  intros r. unfold read_rg. destruct (read_u8 r) as [[a r1]|]; [|discriminate]. cbn [io bind]. destruct (read_be 2 r1) as [[b r2]|]; [|discriminate]. cbn [io bind]. destruct (read_be 2 r2) as [[c r3]|]; [|discriminate]. cbn [io bind].
  destruct (read_be 2 r3) as [[d r4]|]; [|discriminate]. cbn [io bind]. destruct (read_be 2 r4) as [[e r5]|]; discriminate.
Qed.
Lemma ei_np : forall r, read_ei r <> Panic.
Proof.
  intros r. unfold read_ei. destruct (read_u8 r) as [[a r1]|]; [|discriminate]. cbn [io bind]. destruct (read_u8 r1) as [[b r2]|]; [|discriminate]. cbn [io bind]. destruct (read_u8 r2) as [[c r3]|]; [|discriminate]. cbn [io bind]. destruct (read_u8 r3) as [[d r4]|]; discriminate.
Qed.
Lemma packets_np : forall fuel p r, (length r < fuel)%nat -> (r = [] \/ pk_length p + lenN r < 2 ^ 62) -> read_packets fuel p r <> Panic.
Proof.
  induction fuel as [|fuel IH]; intros p r L B; [lia|]. cbn [read_packets]. pose proof (next_spec r) as S. destruct (next_packet r) as [[[[key cap] content] after]| |] eqn:E; [|discriminate|contradiction]. destruct S as (S1 & S2 & S3).
  destruct B as [->|B]; [discriminate E|]. destruct (N.ltb_spec U64_MAX (pk_length p + cap)) as [X|X]. { unfold U64_MAX in X. lia. }
  assert (LA : (length after < fuel)%nat) by (unfold lenN in S3; lia).
  assert (NX : forall a b c, let q := mkPk a b c (pk_length p + cap) (pk_end p) in read_packets fuel q after <> Panic). { intros a b c q. apply IH; [exact LA|]. destruct S2 as [S2|S2]; [right; cbn [q pk_length]; lia|now left]. }
  destruct (list_eqb key ($"SH")). { pose proof (sh_np content). destruct (read_sh content); cbn [bind]; [apply NX|discriminate|contradiction]. }
  destruct (list_eqb key ($"RG")). { pose proof (rg_np content). destruct (read_rg content); cbn [bind]; [apply NX|discriminate|contradiction]. }
  destruct (list_eqb key ($"EI")). { pose proof (ei_np content). destruct (read_ei content); cbn [bind]; [apply NX|discriminate|contradiction]. }
  destruct (list_eqb key ($"SE")); [discriminate|apply NX].
Qed.
(** What a version 8 stream says, and is too much for 64 bits *)
Definition sane8 (r : bytes) : Prop := forall p, read_packets (Datatypes.S (length r)) (mkPk None None None 0 false) r = Ok p -> pk_length p < 2 ^ 45 /\ match pk_header p with Some h => sh_samples h < 2 ^ 54 /\ sh_rate h <= 48000 | None => True end.
Lemma finish_np : forall sl h g e, sl < 2 ^ 45 -> sh_samples h < 2 ^ 54 -> sh_rate h <= 48000 -> sv8_finish sl h g e <> Panic.
Proof.
  intros sl h g e S1 S2 S3. unfold sv8_finish. destruct (_ <? _); [discriminate|]. destruct (N.eqb_spec (sh_rate h) 0); [discriminate|]. destruct (sh_samples h =? 0); [discriminate|]. destruct (N.eqb_spec (sh_samples h - sh_silence h) 0); [discriminate|].
  set (total := sh_samples h - sh_silence h) in *. assert (TT : total <= sh_samples h) by (unfold total; lia). unfold u64_mul, u64_div_round, u64_div. destruct (N.ltb_spec U64_MAX (total * 1000)) as [X|X]; [unfold U64_MAX in X; lia|]. cbn [bind].
  pose proof (C37_div_round U64_MAX (total * 1000) (sh_rate h)) as D. destruct (div_round _ _ _) as [q| |]; [|contradiction|exfalso; destruct D as [D|D]; [lia|]; assert (sh_rate h / 2 <= 24000) by (apply N.div_le_upper_bound; lia); unfold U64_MAX in D; lia]. cbn [bind].
  destruct (N.ltb_spec U64_MAX (sl * 8)) as [Y|Y]; [unfold U64_MAX in Y; lia|]. cbn [bind]. assert (SB : sl * 8 * sh_rate h <= sl * 8 * 48000) by (apply N.mul_le_mono_l; auto). destruct (N.ltb_spec U64_MAX (sl * 8 * sh_rate h)) as [Z|Z]; [unfold U64_MAX in Z; lia|]. cbn [bind].
  destruct (N.eqb_spec (total * 1000) 0); [lia|]. discriminate.
Qed.
Lemma sv8_np : forall strict r, lenN r < 2 ^ 61 -> sane8 r -> sv8_read strict r <> Panic.
Proof.
  intros strict r L SN. unfold sv8_read. unfold sane8 in SN. pose proof (packets_np (Datatypes.S (length r)) (mkPk None None None 0 false) r ltac:(lia) ltac:(right; cbn [pk_length]; lia)) as NP.
  destruct (read_packets _ _ r) as [p| |]; [|discriminate|contradiction]. cbn [bind]. destruct (SN p eq_refl) as [S1 S2]. destruct (pk_header p) as [h|]; [|destruct strict; [discriminate|]]; cbn [bind]; destruct (pk_gain p) as [g|]; try (destruct strict; [discriminate|]); cbn [bind].
  all: try (destruct (_ && strict); [discriminate|]); try (destruct (negb _ && strict); [discriminate|]); try (destruct (_ && false); [discriminate|]); try (destruct (negb _ && false); [discriminate|]); apply finish_np; cbn; try lia; tauto.
Qed.
Lemma land_lt : forall x k j, N.shiftr (N.land x (N.ones j * 2 ^ k)) k < 2 ^ j.
Proof. intros. rewrite N.shiftr_land. rewrite N.shiftr_div_pow2 with (a := _ * _). rewrite N.div_mul by (now apply N.pow_nonzero). rewrite N.land_ones. apply N.mod_lt. now apply N.pow_nonzero. Qed.
(** A version 7 stream that says that it has one frame, of which no samples are heard *)
Definition lone_frame (s : bytes) : Prop := le_dec (takeN 4 (dropN 4 s)) = 1 /\ le_dec (takeN 4 (dropN 20 s)) / 2 ^ 20 = 2048.
Lemma sv7_np : forall log_peak sl s, bytes_ok s -> sl < 2 ^ 45 -> ~ lone_frame s -> sv7_read log_peak sl (dropN 3 s) <> Panic.
Proof.
  intros log_peak sl s OK SL NL. unfold sv7_read. destruct (dropN 3 s) as [|version r0] eqn:D3; [discriminate|]. cbn [read_u8 io bind]. destruct (negb _); [discriminate|].
  assert (R0 : r0 = dropN 4 s). { replace 4 with (3 + 1) by lia. rewrite <- dropN_dropN, D3. reflexivity. } unfold read_le. destruct (read_exact 4 r0) as [[b0 r1]|] eqn:E0; [|discriminate]. cbn [io bind]. apply read_exact_spec in E0 as [E0 L0].
  destruct (read_exact 4 r1) as [[b1 r2]|] eqn:E1; [|discriminate]. cbn [io bind]. apply read_exact_spec in E1 as [E1 L1].
  set (x1 := N.shiftr (N.land (le_dec b1) 0xFF000000) 24). set (x2 := N.shiftr (N.land (le_dec b1) 0xFF0000) 16).
  rewrite profile_at by (apply (land_lt x2 4 4)). rewrite link_at by (apply (land_lt x2 2 2)). assert (RX : N.land x2 3 < 4) by (change 3 with (N.ones 2); rewrite N.land_ones; now apply N.mod_lt). rewrite rate_at by auto. assert (RP := rate_pos _ RX). set (rate := mpc_rate (N.land x2 3)) in *.
  destruct (read_exact 2 r2) as [[c0 r3]|] eqn:E2; [|discriminate]. cbn [io bind]. apply read_exact_spec in E2 as [E2 L2]. destruct (read_exact 2 r3) as [[c1 r4]|] eqn:E3; [|discriminate]. cbn [io bind]. apply read_exact_spec in E3 as [E3 L3].
  destruct (read_exact 2 r4) as [[c2 r5]|] eqn:E4; [|discriminate]. cbn [io bind]. apply read_exact_spec in E4 as [E4 L4]. destruct (read_exact 2 r5) as [[c3 r6]|] eqn:E5; [|discriminate]. cbn [io bind]. apply read_exact_spec in E5 as [E5 L5].
  destruct (read_exact 4 r6) as [[b5 r7]|] eqn:E6; [|discriminate]. cbn [io bind]. apply read_exact_spec in E6 as [E6 L6].
  assert (W5 : takeN 4 (dropN 20 s) = b5). { change 20 with (4 + 16). rewrite <- dropN_dropN, <- R0, E0, E1, E2, E3, E4, E5, E6. rewrite !app_assoc. rewrite <- (app_assoc _ b5 r7). rewrite dropN_app by (rewrite !lenN_app; lia). now apply takeN_app. }
  assert (W0 : takeN 4 (dropN 4 s) = b0) by (rewrite <- R0, E0; now apply takeN_app).
  assert (B5 : le_dec b5 < 2 ^ 32 /\ le_dec b0 < 2 ^ 32). { split; [rewrite <- W5|rewrite <- W0]; match goal with |- le_dec (takeN 4 ?x) < _ => pose proof (le_dec_bound (takeN 4 x) (ok_take _ _ (ok_drop _ _ OK))) as LB; rewrite lenN_takeN in LB; apply N.lt_le_trans with (1 := LB); change (2 ^ 32) with (256 ^ 4); apply N.pow_le_mono_r; [discriminate|lia] end. }
  unfold lone_frame in NL. rewrite W5, W0 in NL. set (w := le_dec b5) in *. set (frames := le_dec b0) in *. destruct B5 as [B5 B0].
  destruct (read_u8 r7) as [[enc r8]|]; [|discriminate]. cbn [io bind]. set (last := if N.shiftr w 31 =? 1 then N.land (N.shiftr w 20) 0x7FF else 0).
  destruct (N.ltb_spec FRAME_LENGTH last) as [LF|LF]; [discriminate|]. destruct (N.eqb_spec rate 0); [lia|]. destruct (N.eqb_spec frames 0) as [Z|NZ]; [discriminate|]. unfold FRAME_LENGTH, SYNTH_DELAY in *. unfold u64_mul at 1. destruct (N.ltb_spec U64_MAX (frames * 1152)) as [X|X]; [unfold U64_MAX in X; lia|]. cbn [bind].
  assert (T : exists total, (if N.shiftr w 31 =? 1 then let? less := u64_sub 1152 last in u64_sub (frames * 1152) less else u64_sub (frames * 1152) 481) = @Ok mpc_error _ total /\ 0 < total /\ total <= frames * 1152).
  { unfold u64_sub. destruct (N.eqb_spec (N.shiftr w 31) 1) as [G|G].
    - destruct (N.ltb_spec 1152 last); [lia|]. cbn [bind]. destruct (N.ltb_spec (frames * 1152) (1152 - last)); [lia|]. eexists. split; [reflexivity|]. split; [|lia].
      assert (NL' : frames <> 1 \/ last <> 0). { destruct (N.eq_dec frames 1) as [F1|F1]; [|now left]. right. intros L00. apply NL. split; [exact F1|]. unfold last in L00.
        change 0x7FF with (N.ones 11) in L00. rewrite N.land_ones in L00. rewrite !N.shiftr_div_pow2 in *. change (2 ^ 11) with 2048 in *. change (2 ^ 20) with 1048576 in *. change (2 ^ 31) with 2147483648 in *. lia. }
      destruct NL'; lia.
    - destruct (N.ltb_spec (frames * 1152) 481); [lia|]. eexists. split; [reflexivity|]. lia. }
  destruct T as (total & T & T1 & T2). rewrite T. cbn [bind]. unfold u64_mul. destruct (N.ltb_spec U64_MAX (sl * 8)) as [Y|Y]; [unfold U64_MAX in Y; lia|]. cbn [bind]. assert (SB : sl * 8 * rate <= sl * 8 * 48000) by (apply N.mul_le_mono_l; lia).
  destruct (N.ltb_spec U64_MAX (sl * 8 * rate)) as [V|V]; [unfold U64_MAX in V; lia|]. cbn [bind]. destruct (N.ltb_spec U64_MAX (total * 1000)) as [U|U]; [unfold U64_MAX in U; lia|]. cbn [bind]. unfold u64_div. destruct (N.eqb_spec (total * 1000) 0); [lia|]. discriminate.
Qed.
Lemma sv6_np : forall strict sl r, bytes_ok r -> sv6_read strict sl r <> Panic.
Proof.
  intros strict sl r OK. unfold sv6_read. unfold read_le. destruct (read_exact 4 r) as [[b0 r1]|] eqn:E0; [|discriminate]. cbn [io bind]. apply read_exact_spec in E0 as [E0 L0]. destruct (read_exact 4 r1) as [[b1 r2]|] eqn:E1; [|discriminate]. cbn [io bind]. apply read_exact_spec in E1 as [E1 L1].
  assert (B1 : le_dec b1 < 2 ^ 32). { rewrite E0, E1 in OK. apply Forall_app in OK as [_ OK]. apply Forall_app in OK as [OK _]. pose proof (le_dec_bound b1 OK) as LB. rewrite L1 in LB. exact LB. }
  destruct (io (read_exact 24 r2)) as [u| |] eqn:EU; [|discriminate|now apply io_np in EU]. cbn [bind]. destruct (_ || _); [discriminate|]. destruct (strict && negb (_ =? 0)); [discriminate|]. destruct (strict && (_ =? 1)); [discriminate|]. destruct (strict && negb _); [discriminate|].
  set (fr := if _ <? 6 then _ else _). assert (FB : fr < 2 ^ 32). { assert (S16 : N.shiftr (le_dec b1) 16 < 2 ^ 32) by (rewrite N.shiftr_div_pow2; apply N.div_lt_upper_bound; [discriminate|lia]). unfold fr. destruct (_ <? 6), (5 <=? _); lia. }
  destruct (fr =? 0); [discriminate|]. unfold FRAME_LENGTH, SYNTH_DELAY. unfold u64_mul. destruct (N.ltb_spec U64_MAX ((fr * 1152 - 481) * 1000)) as [X|X]; [unfold U64_MAX in X; lia|]. cbn [bind]. unfold u64_div_round.
  pose proof (C37_div_round U64_MAX ((fr * 1152 - 481) * 1000) 44100) as D. destruct (div_round _ _ _) as [q| |]; [discriminate|contradiction|exfalso]. destruct D as [D|D]; [discriminate|]. change (44100 / 2) with 22050 in D. unfold U64_MAX in D. lia.
Qed.
Lemma find_sizes : forall data read h c p, find_id3v2 data 0 read None = Ok (Some h, c, p) -> exists n, full_tag_size h = Ok n.
Proof.
  intros data read h c p H. unfold find_id3v2 in H. pose proof (C34_sizes (dropN 0 data)) as T. destruct (header_parse (dropN 0 data)) as [[h0|e|] rem]; cbn [fst] in T; [| |contradiction].
  - destruct T as (_ & _ & n & T & _). exists n. destruct read; [destruct (read_exact (h_size h0) rem) as [[? ?]|]; [|discriminate]|]; cbn [bind] in H; injection H as <- _ _; exact T.
  - destruct (seek_back _ _); discriminate.
Qed.
Lemma mpc_np : forall inflate log_peak o data, (forall b c, inflate b = Some c -> lenN c <= lenN b) -> bytes_ok data -> lenN data < 2 ^ 45 ->
  (mo_props o = true -> forall p, (takeN 4 (dropN p data) = $"MPCK" -> sane8 (dropN (p + 4) data)) /\ (takeN 3 (dropN p data) = $"MP+" -> ~ lone_frame (dropN p data))) ->
  mpc_read inflate log_peak o data <> Panic.
Proof.
  intros inflate log_peak o data I OK L C. unfold mpc_read. pose proof (find_total data 0 (mo_tags o)) as FT. destruct (find_id3v2 data 0 (mo_tags o) None) as [[[h c] past]| |] eqn:FE; [|discriminate|contradiction]. cbn [mpc_tag bind].
  assert (S : match (match h, c with Some h, Some c => let? n := mpc_tag (full_tag_size h) in let? sl := mpc_less (lenN data) n in let? (t, _) := mpc_tag (parse_id3v2 inflate h (mo_frames o) c) in Ok (Some t, sl) | _, _ => Ok (None, lenN data) end) with Ok (_, sl) => sl <= lenN data | Err _ => True | Panic => False end).
  { destruct h as [h|]; [|lia]. destruct c as [c|]; [|lia]. destruct (find_sizes _ _ _ _ _ FE) as [n FS]. rewrite FS. cbn [mpc_tag bind]. unfold mpc_less. destruct (N.ltb_spec (lenN data) n); [exact Logic.I|]. cbn [bind].
    pose proof (C143_total inflate h (mo_frames o) c I) as PT. destruct (parse_id3v2 inflate h (mo_frames o) c) as [[t ?]| |]; [|exact Logic.I|contradiction]. cbn [mpc_tag bind]. lia. }
  match type of S with match ?x with _ => _ end => destruct x as [[v2 sl]| |]; [|discriminate|contradiction] end. cbn [bind]. destruct (find_id3v1 data) as [p1 fd] eqn:F.
  assert (P1 : p1 <= lenN data /\ (fd = true -> p1 = lenN data - 128 /\ 128 <= lenN data)). { unfold find_id3v1 in F. destruct (N.ltb_spec (lenN data) 128); [injection F as <- <-; split; [lia|discriminate]|]. destruct (list_eqb _ TAG); injection F as <- <-; split; intros; try lia; discriminate. }
  destruct P1 as [P1 P2].
  assert (V : (if fd && mo_tags o then let? t := mpc_tag (v1_parse (dropN p1 data) (mo_strict o)) in Ok (Some t) else Ok None) <> @Panic mpc_error (option id3v1)).
  { destruct (fd && mo_tags o) eqn:FM; [|discriminate]. apply andb_true_iff in FM as [-> _]. destruct (P2 eq_refl) as [-> L128]. pose proof (C47_parse_total (dropN (lenN data - 128) data) (mo_strict o)) as T.
    rewrite lenN_dropN in T. specialize (T ltac:(lia) (ok_drop _ _ OK)). destruct (v1_parse _ _); cbn [mpc_tag bind]; try discriminate. contradiction. }
  match type of V with ?x <> _ => destruct x as [v1| |]; [|discriminate|contradiction] end. cbn [bind].
  assert (LE : forall a b, mpc_less a b <> Panic /\ forall s, mpc_less a b = Ok s -> s <= a) by (intros a b; unfold mpc_less; destruct (a <? b); split; try discriminate; intros s X; injection X as <-; lia).
  assert (S1 : match (if fd then mpc_less sl 128 else Ok sl) with Ok s => s <= sl | Err _ => True | Panic => False end). { destruct fd; [|lia]. destruct (LE sl 128) as [A B]. destruct (mpc_less sl 128); auto. }
  match type of S1 with match ?x with _ => _ end => destruct x as [s1| |]; [|discriminate|contradiction] end. cbn [bind].
  pose proof (C35_never_recognised data p1 P1) as LY. destruct (find_lyrics3v2 data p1) as [[[lf ls] pos]| |]; [|discriminate|contradiction]. cbn [mpc_tag bind]. destruct (LE s1 ls) as [A B]. destruct (mpc_less s1 ls) as [s2| |]; [|discriminate|contradiction]. specialize (B s2 eq_refl). cbn [bind].
  destruct (seek_back pos 32) as [s|]; [|discriminate]. pose proof (C70_read_tag_total data true (fo_cover (mo_frames o)) (mo_tags o) (rd_at data s)) as RT.
  destruct (read_ape_tag data true (fo_cover (mo_frames o)) (mo_tags o) (rd_at data s)) as [[[t hh] r]| |]; [|discriminate|contradiction]. cbn [mpc_tag bind].
  assert (S3 : match (match hh with Some (size, _) => if fst r <? size then Err CSize else mpc_less s2 size | None => Ok s2 end) with Ok s => s <= s2 | Err _ => True | Panic => False end).
  { destruct hh as [[size ?]|]; [|lia]. destruct (fst r <? size); [exact Logic.I|]. destruct (LE s2 size) as [X Y]. destruct (mpc_less s2 size); auto. }
  match type of S3 with match ?x with _ => _ end => destruct x as [s3| |]; [|discriminate|contradiction] end. cbn [bind].
  destruct (read_exact 4 (dropN past data)) as [[magic rest]|] eqn:RE; [|discriminate]. cbn [io bind]. apply read_exact_spec in RE as [RE LM]. destruct (mo_props o) eqn:MP; [|discriminate]. destruct (C eq_refl past) as [C8 C7].
  assert (DR : rest = dropN (past + 4) data) by (rewrite <- dropN_dropN, RE; symmetry; now apply dropN_app). assert (TM : takeN 4 (dropN past data) = magic) by (rewrite RE; now apply takeN_app).
  assert (T3 : takeN 3 (dropN past data) = takeN 3 magic) by (rewrite RE; apply takeN_app_le; lia).
  destruct (list_eqb magic ($"MPCK")) eqn:M8.
  - apply list_eqb_eq in M8. rewrite <- TM in M8. specialize (C8 M8). rewrite <- DR in C8. pose proof (sv8_np (mo_strict o) rest) as NP. specialize (NP ltac:(rewrite DR, lenN_dropN; lia) C8). destruct (sv8_read (mo_strict o) rest); cbn [bind]; try discriminate. contradiction.
  - destruct (list_eqb (takeN 3 magic) ($"MP+")) eqn:M7.
    + apply list_eqb_eq in M7. rewrite <- T3 in M7. specialize (C7 M7). pose proof (sv7_np log_peak s3 (dropN past data) (ok_drop _ _ OK) ltac:(lia) C7) as NP. rewrite dropN_dropN in NP. destruct (sv7_read log_peak s3 (dropN (past + 3) data)); cbn [bind]; try discriminate. contradiction.
    + pose proof (sv6_np (mo_strict o) s3 (dropN past data) (ok_drop _ _ OK)) as NP. destruct (sv6_read (mo_strict o) s3 (dropN past data)); cbn [bind]; try discriminate. contradiction.
Qed.
