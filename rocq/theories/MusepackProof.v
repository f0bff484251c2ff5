(** Reading of the parts of a Musepack stream. *)
From Verif Require Import BaseLemmas StrLemmas MathModel AiffModel MpegModel MpegProof.
From Verif Require Export MusepackSpec.
From Verif Require Import Base Str.

Lemma bit1_lt : forall b, bit1 b < 2. Proof. intros []; cbv; auto. Qed.
Lemma bit1_eq : forall b, (bit1 b =? 1) = b. Proof. now intros []. Qed.
Lemma app1 : forall (x : N) r, x :: r = [x] ++ r. Proof. reflexivity. Qed.
Lemma read_u8_cons : forall c r, read_u8 (c :: r) = Some (c, r). Proof. reflexivity. Qed.
Lemma read_le_app : forall n v r, v < 256 ^ N.of_nat n -> read_le (N.of_nat n) (le_enc n v ++ r) = Some (v, r).
Proof. intros n v r L. unfold read_le. rewrite read_exact_app by apply le_enc_len. cbn. now rewrite le_dec_enc. Qed.
Lemma read_be_app' : forall n v r, v < 256 ^ N.of_nat n -> read_be (N.of_nat n) (be_enc n v ++ r) = Some (v, r).
Proof. intros n v r L. unfold read_be. rewrite read_exact_app by apply be_enc_len. cbn. now rewrite be_dec_enc. Qed.
Lemma le4 : forall v r, v < 2 ^ 32 -> read_le 4 (le_enc 4 v ++ r) = Some (v, r). Proof. intros v r L. exact (read_le_app 4 v r L). Qed.
Lemma le2 : forall v r, v < 2 ^ 16 -> read_le 2 (le_enc 2 v ++ r) = Some (v, r). Proof. intros v r L. exact (read_le_app 2 v r L). Qed.
Lemma be4 : forall v r, v < 2 ^ 32 -> read_be 4 (be_enc 4 v ++ r) = Some (v, r). Proof. intros v r L. exact (read_be_app' 4 v r L). Qed.
Lemma be2 : forall v r, v < 2 ^ 16 -> read_be 2 (be_enc 2 v ++ r) = Some (v, r). Proof. intros v r L. exact (read_be_app' 2 v r L). Qed.

(** ** Version 8 *)
Lemma sized_len : forall n v, lenN (sized n v) = N.of_nat n.
Proof. induction n as [|[|n] IH]; intros v; [reflexivity|reflexivity|]. change (sized (Datatypes.S (Datatypes.S n)) v) with ((128 + v / 128 ^ N.of_nat (Datatypes.S n) mod 128) :: sized (Datatypes.S n) v). rewrite lenN_cons, IH. lia. Qed.
Lemma group_low : forall v, v < 128 -> N.land v 0x7F = v /\ (N.land v 0x80 =? 0) = true.
Proof.
  intros v L. split. { change 0x7F with (N.ones 7). rewrite N.land_ones. now apply N.mod_small. }
  apply N.eqb_eq. apply N.bits_inj. intro i. rewrite N.land_spec, N.bits_0. destruct (N.eq_dec i 7) as [->|X]; [|change 0x80 with (2 ^ 7); rewrite N.pow2_bits_false by auto; apply andb_false_r].
  rewrite N.testbit_eqb. change (2 ^ 7) with 128. now rewrite N.div_small.
Qed.
Lemma group_high : forall v, v < 128 -> N.land (128 + v) 0x7F = v /\ (N.land (128 + v) 0x80 =? 0) = false.
Proof.
  intros v L. split. { change 0x7F with (N.ones 7). rewrite N.land_ones. change (2 ^ 7) with 128. replace (128 + v) with (v + 1 * 128) by lia. rewrite N.mod_add by discriminate. now apply N.mod_small. }
  apply N.eqb_neq. intro X. apply (f_equal (fun x => N.testbit x 7)) in X. rewrite N.land_spec, N.bits_0 in X. change (N.testbit 0x80 7) with true in X. rewrite andb_true_r in X.
  rewrite N.testbit_eqb in X. change (2 ^ 7) with 128 in X. replace (128 + v) with (v + 1 * 128) in X by lia. rewrite N.div_add, N.div_small in X by (auto; discriminate). discriminate X.
Qed.
Lemma read_sized : forall n m count acc v r, (1 <= n <= m)%nat -> v < 128 ^ N.of_nat n -> read_size m count acc (sized n v ++ r) = Ok (acc * 128 ^ N.of_nat n + v, count + N.of_nat n, r).
Proof.
  assert (G : forall n m count acc v r, (1 <= n <= m)%nat -> read_size m count acc (sized n v ++ r) = Ok (acc * 128 ^ N.of_nat n + v mod 128 ^ N.of_nat n, count + N.of_nat n, r)).
  { induction n as [|n IH]; intros m count acc v r L; [lia|]. destruct m as [|m]; [lia|]. destruct n as [|n].
    - cbn [sized app read_size]. destruct (group_low (v mod 128)) as [A B]. { now apply N.mod_lt. } rewrite A, B. now change (128 ^ N.of_nat 1) with 128.
    - change (sized (Datatypes.S (Datatypes.S n)) v) with ((128 + v / 128 ^ N.of_nat (Datatypes.S n) mod 128) :: sized (Datatypes.S n) v). cbn [app read_size].
      set (q := 128 ^ N.of_nat (Datatypes.S n)). destruct (group_high (v / q mod 128)) as [A B]. { now apply N.mod_lt. } rewrite A, B. rewrite IH by lia. fold q.
      assert (QZ : q <> 0) by (unfold q; now apply N.pow_nonzero). rewrite (Nat2N.inj_succ (Datatypes.S n)), N.pow_succ_r'. fold q. rewrite (N.mul_comm 128 q). rewrite N.mod_mul_r by (auto; discriminate).
      f_equal. f_equal. f_equal; lia. }
  intros n m count acc v r L V. rewrite G by auto. now rewrite N.mod_small.
Qed.
Lemma read_fits : forall n v r, fits n v -> read_size 9 0 0 (sized n v ++ r) = Ok (v, N.of_nat n, r).
Proof. intros n v r [L V]. rewrite read_sized by (auto; lia). now rewrite N.mul_0_l, !N.add_0_l. Qed.
Lemma rate_at : forall i, i < 4 -> nth (N.to_nat i) MPC_RATES 0 = mpc_rate i.
Proof. intros i L. assert (X : In i [0;1;2;3]) by (cbn [In]; lia). cbn [In] in X. repeat destruct X as [<- | X]; [reflexivity..|contradiction]. Qed.
Lemma rate_pos : forall i, i < 4 -> 32000 <= mpc_rate i <= 48000.
Proof. intros i L. assert (X : In i [0;1;2;3]) by (cbn [In]; lia). cbn [In] in X. repeat destruct X as [<- | X]; [vm_compute; split; discriminate..|contradiction]. Qed.
Definition header_is (h : head8) : stream_header := mkSH (e_crc h) (e_version h) (e_samples h) (e_silence h) (mpc_rate (e_rate h)) (e_bands h) (e_channels h) (e_ms h) (4 ^ e_block h).
Lemma read_head8 : forall h r, head8_ok h -> read_sh (head8_bytes h ++ r) = Ok (header_is h).
Proof.
  intros h r (C & V & S1 & S2 & R & B & CH & BL). unfold read_sh, head8_bytes. rewrite <- !app_assoc. rewrite be4 by auto. cbn [io bind app]. rewrite read_u8_cons. cbn [io bind].
  rewrite read_fits by auto. cbn [bind]. rewrite read_fits by auto. cbn [bind]. rewrite !read_u8_cons. cbn [io bind]. rewrite read_u8_cons. cbn [io bind]. unfold header_is. f_equal.
  assert (BT := bit1_lt (e_ms h)). set (b1 := e_rate h * 32 + (e_bands h - 1)). set (b2 := (e_channels h - 1) * 16 + bit1 (e_ms h) * 8 + e_block h).
  assert (F1 : N.shiftr (N.land b1 0xE0) 5 = e_rate h). { rewrite N.shiftr_land. change (N.shiftr 0xE0 5) with 7. apply (field b1 5 3 0 (e_rate h) (e_bands h - 1)); [unfold b1; lia|lia|lia]. }
  assert (F2 : N.land b1 0x1F = e_bands h - 1). { rewrite <- (N.shiftr_0_r b1). apply (field b1 0 5 (e_rate h) (e_bands h - 1) 0); [unfold b1; lia|lia|lia]. }
  assert (F3 : N.shiftr b2 4 = e_channels h - 1). { unfold b2. rewrite N.shiftr_div_pow2. symmetry. apply (N.div_unique _ _ _ (bit1 (e_ms h) * 8 + e_block h)); lia. }
  assert (F4 : (N.land b2 8 =? 8) = e_ms h).
  { assert (X : N.land (N.shiftr b2 3) 1 = bit1 (e_ms h)). { apply (field b2 3 1 (e_channels h - 1) (bit1 (e_ms h)) (e_block h)); [unfold b2; lia|lia|lia]. }
    assert (Y : N.land b2 8 = N.shiftl (N.land (N.shiftr b2 3) 1) 3). { apply N.bits_inj. intro i. rewrite N.land_spec. destruct (N.lt_ge_cases i 3) as [L|L].
      - rewrite N.shiftl_spec_low by auto. change 8 with (2 ^ 3). rewrite N.pow2_bits_false by lia. apply andb_false_r.
      - rewrite N.shiftl_spec_high' by auto. rewrite N.land_spec, N.shiftr_spec'. replace (i - 3 + 3) with i by lia. f_equal. destruct (N.eq_dec i 3) as [->|NE]; [reflexivity|]. change 8 with (2 ^ 3). rewrite N.pow2_bits_false by auto. change 1 with (2 ^ 0). rewrite N.pow2_bits_false by lia. reflexivity. }
    rewrite Y, X. now destruct (e_ms h). }
  assert (F5 : N.land b2 7 = e_block h). { rewrite <- (N.shiftr_0_r b2). apply (field b2 0 3 ((e_channels h - 1) * 2 + bit1 (e_ms h)) (e_block h) 0); [unfold b2; lia|lia|lia]. }
  rewrite F1, F2, F3, F4, F5. rewrite rate_at by auto. f_equal; lia.
Qed.
Definition gain_is (g : gain8) : mpc_gain := mkRG (y_version g) (y_title_gain g) (y_title_peak g) (y_album_gain g) (y_album_peak g).
Lemma read_gain8 : forall g r, gain8_ok g -> read_rg (gain8_bytes g ++ r) = Ok (gain_is g).
Proof.
  intros g r (A & B & C & D & E). unfold read_rg, gain8_bytes. rewrite <- !app_assoc. cbn [app]. rewrite read_u8_cons. cbn [io bind]. rewrite !be2 by auto. cbn [io bind]. rewrite !be2 by auto. cbn [io bind]. rewrite !be2 by auto. cbn [io bind]. rewrite !be2 by auto. reflexivity.
Qed.
Definition enc_is (e : enc8) : encoder_info := mkEI (z_profile e) (z_pns e) (z_major e) (z_minor e) (z_build e).
Lemma read_enc8 : forall e r, enc8_ok e -> read_ei (enc8_bytes e ++ r) = Ok (enc_is e).
Proof.
  intros e r (A & B & C & D). unfold read_ei, enc8_bytes. cbn [app]. rewrite !read_u8_cons. cbn [io bind]. rewrite !read_u8_cons. cbn [io bind]. rewrite !read_u8_cons. cbn [io bind]. rewrite !read_u8_cons. cbn [io bind].
  assert (BT := bit1_lt (z_pns e)). set (b := z_profile e * 2 + bit1 (z_pns e)).
  assert (F1 : N.shiftr (N.land b 0xFE) 1 = z_profile e). { rewrite N.shiftr_land. change (N.shiftr 0xFE 1) with 127. apply (field b 1 7 0 (z_profile e) (bit1 (z_pns e))); [unfold b; lia|lia|lia]. }
  assert (F2 : N.land b 1 = bit1 (z_pns e)). { rewrite <- (N.shiftr_0_r b). apply (field b 0 1 (z_profile e) (bit1 (z_pns e)) 0); [unfold b; lia|lia|lia]. }
  rewrite F1, F2, bit1_eq. reflexivity.
Qed.
Lemma capitals : forall k, Forall capital k -> forallb MusepackModel.upper k = true.
Proof. intros k F. apply forallb_forall. intros c I. rewrite Forall_forall in F. specialize (F c I). unfold MusepackModel.upper. unfold capital in F. apply andb_true_iff. split; apply N.leb_le; lia. Qed.
Lemma next_is : forall n key content rest, forallb MusepackModel.upper key = true -> lenN key = 2 -> fits n (2 + N.of_nat n + lenN content) ->
  next_packet (key ++ sized n (2 + N.of_nat n + lenN content) ++ content ++ rest) = Ok (key, lenN content, content, rest).
Proof.
  intros n key content rest U L F. unfold next_packet. rewrite read_exact_app by auto. cbn [io bind]. rewrite U. cbn [negb]. rewrite read_fits by auto. cbn [bind].
  replace (2 + N.of_nat n + lenN content - (2 + N.of_nat n)) with (lenN content) by lia. now rewrite takeN_app, dropN_app.
Qed.
Definition or_else {A} (a b : option A) : option A := match a with Some x => Some x | None => b end.
Definition found8 (l : list (nat * packet)) (p : packets) (n : N) (e : bool) : packets :=
  mkPk (or_else (option_map header_is (the_head l)) (pk_header p)) (or_else (option_map gain_is (the_gain l)) (pk_gain p)) (or_else (option_map enc_is (the_enc l)) (pk_encoder p)) (pk_length p + contents_len l + n) e.
Lemma eqb_no : forall k x, k <> x -> list_eqb k x = false. Proof. intros. now apply list_eqb_neq. Qed.
Lemma read_all : forall l n last rest fuel p, Forall packet_ok l -> fits n (2 + N.of_nat n + lenN last) -> (length l < fuel)%nat -> pk_length p + contents_len l + lenN last <= U64_MAX ->
  read_packets fuel p (flat_map packet_bytes l ++ packet_bytes (n, KOther ($"SE") last) ++ rest) = Ok (found8 l p (lenN last) true).
Proof.
  induction l as [|[m q] l IH]; intros n last rest fuel p F FN L SL; (destruct fuel as [|fuel]; [cbn [length] in L; lia|]).
  - cbn [flat_map app packet_bytes key_of content_of]. rewrite <- !app_assoc. cbn [read_packets]. rewrite next_is by (auto; reflexivity). cbn [contents_len fold_right] in SL. rewrite N.add_0_r in SL.
    destruct (N.ltb_spec U64_MAX (pk_length p + lenN last)); [lia|]. change (list_eqb ($"SE") ($"SH")) with false. change (list_eqb ($"SE") ($"RG")) with false. change (list_eqb ($"SE") ($"EI")) with false. change (list_eqb ($"SE") ($"SE")) with true.
    unfold found8. cbn. now rewrite N.add_0_r.
  - apply Forall_cons_iff in F as [[FQ OK] F]. cbn [length] in L. change (flat_map packet_bytes ((m, q) :: l)) with ((key_of q ++ sized m (2 + N.of_nat m + lenN (content_of q)) ++ content_of q) ++ flat_map packet_bytes l). rewrite <- !app_assoc. cbn [read_packets].
    assert (CL : contents_len ((m, q) :: l) = lenN (content_of q) + contents_len l) by reflexivity. rewrite CL in SL.
    assert (U : forallb MusepackModel.upper (key_of q) = true /\ lenN (key_of q) = 2). { destruct q; try (split; reflexivity). destruct OK as (A & B & _). split; [now apply capitals|auto]. } destruct U as [U1 U2].
    rewrite next_is by auto. destruct (N.ltb_spec U64_MAX (pk_length p + lenN (content_of q))); [lia|]. unfold found8. rewrite CL.
    destruct q as [h more|g more|e more|key content]; cbn [key_of content_of] in *.
    + change (list_eqb ($"SH") ($"SH")) with true. cbv iota. rewrite read_head8 by auto. cbn [bind]. rewrite IH; auto; [|lia|cbn [pk_length]; lia]. unfold found8. cbn [pk_header pk_gain pk_encoder pk_length pk_end the_head the_gain the_enc pick]. f_equal. f_equal.
      * unfold the_head. destruct (pick _ l); reflexivity. * now destruct (the_gain l). * now destruct (the_enc l). * lia.
    + change (list_eqb ($"RG") ($"SH")) with false. change (list_eqb ($"RG") ($"RG")) with true. cbv iota. rewrite read_gain8 by auto. cbn [bind]. rewrite IH; auto; [|lia|cbn [pk_length]; lia]. unfold found8. cbn [pk_header pk_gain pk_encoder pk_length pk_end the_head the_gain the_enc pick]. f_equal. f_equal.
      * now destruct (the_head l). * unfold the_gain. destruct (pick _ l); reflexivity. * now destruct (the_enc l). * lia.
    + change (list_eqb ($"EI") ($"SH")) with false. change (list_eqb ($"EI") ($"RG")) with false. change (list_eqb ($"EI") ($"EI")) with true. cbv iota. rewrite read_enc8 by auto. cbn [bind]. rewrite IH; auto; [|lia|cbn [pk_length]; lia]. unfold found8. cbn [pk_header pk_gain pk_encoder pk_length pk_end the_head the_gain the_enc pick]. f_equal. f_equal.
      * now destruct (the_head l). * now destruct (the_gain l). * unfold the_enc. destruct (pick _ l); reflexivity. * lia.
    + destruct OK as (_ & _ & N1 & N2 & N3 & N4). rewrite !eqb_no by auto. rewrite IH; auto; [|lia|cbn [pk_length]; lia]. unfold found8. cbn [pk_header pk_gain pk_encoder pk_length pk_end the_head the_gain the_enc pick]. f_equal. f_equal.
      * now destruct (the_head l). * now destruct (the_gain l). * now destruct (the_enc l). * lia.
Qed.
Lemma packets_len : forall l, Forall packet_ok l -> (length l <= length (flat_map packet_bytes l))%nat.
Proof.
  induction 1 as [|[n p] l [F OK] _ IH]; [reflexivity|]. cbn [flat_map length]. rewrite app_length. unfold packet_bytes at 1. rewrite !app_length. pose proof (sized_len n (2 + N.of_nat n + lenN (content_of p))) as SL. unfold lenN in SL at 1. destruct F as [F _]. lia.
Qed.
Lemma sv8_shape : forall strict l n last rest, sv8_ok l n last -> contents_len l + lenN last <= U64_MAX ->
  sv8_read strict (flat_map packet_bytes l ++ packet_bytes (n, KOther ($"SE") last) ++ rest) =
  let? h := (match the_head l with Some h => Ok (header_is h) | None => if strict then Err CHeader else Ok sh_default end) in
  let? g := (match the_gain l with Some g => Ok (gain_is g) | None => if strict then Err CGain else Ok rg_default end) in
  if (contents_len l + lenN last =? 0) && strict then Err CAudio else sv8_finish (contents_len l + lenN last) h g (option_map enc_is (the_enc l)).
Proof.
  intros strict l n last rest [F FN] SL. unfold sv8_read. rewrite read_all; auto. 2:{ rewrite app_length. pose proof (packets_len l F). lia. }
  cbn [bind]. unfold found8. cbn [pk_header pk_gain pk_encoder pk_length pk_end]. rewrite N.add_0_l. cbn [negb andb]. destruct (the_head l), (the_gain l), (the_enc l); reflexivity.
Qed.

(** ** Version 7 *)
Lemma profile_at : forall n, n < 16 -> profile_from n = Some (nth (N.to_nat n) profiles PNone).
Proof. intros n L. assert (X : In n [0;1;2;3;4;5;6;7;8;9;10;11;12;13;14;15]) by (cbn [In]; lia). cbn [In] in X. repeat destruct X as [<- | X]; [reflexivity..|contradiction]. Qed.
Lemma link_at : forall n, n < 4 -> link_from n = Some (nth (N.to_nat n) links LVeryLow).
Proof. intros n L. assert (X : In n [0;1;2;3]) by (cbn [In]; lia). cbn [In] in X. repeat destruct X as [<- | X]; [reflexivity..|contradiction]. Qed.
Definition base7 (log_peak : N -> N) (h : head7) (d b : N) : sv7_props :=
  mk7 d b 2 (d_frames h) (d_is h) (d_ms h) (d_band h) (nth (N.to_nat (d_profile h)) profiles PNone) (nth (N.to_nat (d_link h)) links LVeryLow) (mpc_rate (d_rate h)) (d_level h)
    (replay_gain (d_title_gain h)) (replay_peak log_peak (d_title_peak h)) (replay_gain (d_album_gain h)) (replay_peak log_peak (d_album_peak h)) (d_gapless h) (if d_gapless h then d_last h else 0) (d_fast h) (d_low h mod 256).
Definition length7 (h : head7) : rat := r_mul (r_mul (of_int (d_frames h)) (r_div (of_int FRAME_LENGTH) (of_int (mpc_rate (d_rate h))))) (1000, 1).
Lemma sv7_shape : forall log_peak h rest sl, head7_ok h ->
  sv7_read log_peak sl (dropN 3 (head7_bytes h ++ rest)) =
  if d_frames h =? 0 then Ok (base7 log_peak h 0 0) else
  let? bits := u64_mul sl 8 in
  let? bits := u64_mul bits (mpc_rate (d_rate h)) in
  let? b := u64_div bits (samples7 h * 1000) in
  Ok (base7 log_peak h (to_int U64_MAX (length7 h)) (b mod 2 ^ 32)).
Proof.
  intros log_peak h rest sl (M & FR & BA & PR & LI & RA & LE & TP & TG & AP & AG & LA & UN & EN & LO). unfold head7_bytes. rewrite <- !app_assoc. rewrite dropN_app by reflexivity. cbn [app]. unfold sv7_read. rewrite read_u8_cons. cbn [io bind].
  assert (V : N.land (d_minor h * 16 + 7) 15 = 7). { rewrite <- (N.shiftr_0_r (_ + _)). apply (field (d_minor h * 16 + 7) 0 4 (d_minor h) 7 0); lia. } rewrite V. change (7 =? 7) with true. cbn [negb].
  rewrite le4 by auto. cbn [io bind]. assert (B1 := bit1_lt (d_is h)). assert (B2 := bit1_lt (d_ms h)). assert (B3 := bit1_lt (d_gapless h)). assert (B4 := bit1_lt (d_fast h)).
  rewrite le4 by (unfold word2; lia). cbn [io bind].
  set (x1 := N.shiftr (N.land (word2 h) 0xFF000000) 24). set (x2 := N.shiftr (N.land (word2 h) 0xFF0000) 16).
  assert (E1 : x1 = bit1 (d_is h) * 128 + bit1 (d_ms h) * 64 + d_band h). { unfold x1. rewrite N.shiftr_land. change (N.shiftr 0xFF000000 24) with 255. apply (field (word2 h) 24 8 0 (bit1 (d_is h) * 128 + bit1 (d_ms h) * 64 + d_band h) (d_profile h * 2 ^ 20 + d_link h * 2 ^ 18 + d_rate h * 2 ^ 16 + d_level h)); [unfold word2; lia|lia|lia]. }
  assert (E2 : x2 = d_profile h * 16 + d_link h * 4 + d_rate h). { unfold x2. rewrite N.shiftr_land. change (N.shiftr 0xFF0000 16) with 255. apply (field (word2 h) 16 8 (bit1 (d_is h) * 128 + bit1 (d_ms h) * 64 + d_band h) (d_profile h * 16 + d_link h * 4 + d_rate h) (d_level h)); [unfold word2; lia|lia|lia]. }
  assert (F1 : N.shiftr (N.land x1 128) 7 = bit1 (d_is h)). { rewrite N.shiftr_land. change (N.shiftr 128 7) with 1. apply (field x1 7 1 0 (bit1 (d_is h)) (bit1 (d_ms h) * 64 + d_band h)); lia. }
  assert (F2 : N.shiftr (N.land x1 64) 6 = bit1 (d_ms h)). { rewrite N.shiftr_land. change (N.shiftr 64 6) with 1. apply (field x1 6 1 (bit1 (d_is h)) (bit1 (d_ms h)) (d_band h)); lia. }
  assert (F3 : N.land x1 63 = d_band h). { rewrite <- (N.shiftr_0_r x1). apply (field x1 0 6 (bit1 (d_is h) * 2 + bit1 (d_ms h)) (d_band h) 0); lia. }
  assert (F4 : N.shiftr (N.land x2 240) 4 = d_profile h). { rewrite N.shiftr_land. change (N.shiftr 240 4) with 15. apply (field x2 4 4 0 (d_profile h) (d_link h * 4 + d_rate h)); lia. }
  assert (F5 : N.shiftr (N.land x2 12) 2 = d_link h). { rewrite N.shiftr_land. change (N.shiftr 12 2) with 3. apply (field x2 2 2 (d_profile h) (d_link h) (d_rate h)); lia. }
  assert (F6 : N.land x2 3 = d_rate h). { rewrite <- (N.shiftr_0_r x2). apply (field x2 0 2 (d_profile h * 4 + d_link h) (d_rate h) 0); lia. }
  assert (F7 : N.land (word2 h) 65535 = d_level h). { rewrite <- (N.shiftr_0_r (word2 h)). apply (field (word2 h) 0 16 (bit1 (d_is h) * 2 ^ 15 + bit1 (d_ms h) * 2 ^ 14 + d_band h * 2 ^ 8 + d_profile h * 2 ^ 4 + d_link h * 2 ^ 2 + d_rate h) (d_level h) 0); [unfold word2; lia|lia|lia]. }
  rewrite F1, F2, F3, F4, F5, F6, F7, !bit1_eq. rewrite profile_at, link_at by auto. rewrite rate_at by auto.
  rewrite !le2 by auto. cbn [io bind]. rewrite !le2 by auto. cbn [io bind]. rewrite !le2 by auto. cbn [io bind]. rewrite !le2 by auto. cbn [io bind]. rewrite le4 by (unfold word5; lia). cbn [io bind].
  assert (G1 : N.shiftr (word5 h) 31 = bit1 (d_gapless h)). { unfold word5. rewrite N.shiftr_div_pow2. symmetry. apply (N.div_unique _ _ _ (d_last h * 2 ^ 20 + bit1 (d_fast h) * 2 ^ 19 + d_unused h)); lia. }
  assert (G2 : N.land (N.shiftr (word5 h) 20) 2047 = d_last h). { apply (field (word5 h) 20 11 (bit1 (d_gapless h)) (d_last h) (bit1 (d_fast h) * 2 ^ 19 + d_unused h)); [unfold word5; lia|lia|lia]. }
  assert (G3 : N.land (N.shiftr (word5 h) 19) 1 = bit1 (d_fast h)). { apply (field (word5 h) 19 1 (bit1 (d_gapless h) * 2 ^ 11 + d_last h) (bit1 (d_fast h)) (d_unused h)); [unfold word5; lia|lia|lia]. }
  rewrite G1, G2, G3, !bit1_eq. set (e := d_encoder h * 2 ^ 24 + d_low h).
  assert (LE4 : exists r, le_enc 4 e = d_low h mod 256 :: r). { cbn [le_enc]. eexists. f_equal. unfold e. replace (d_encoder h * 2 ^ 24 + d_low h) with (d_low h + d_encoder h * 65536 * 256) by lia. now rewrite N.mod_add. }
  destruct LE4 as [r LE4]. rewrite LE4. cbn [app]. rewrite read_u8_cons. cbn [io bind].
  destruct (N.ltb_spec FRAME_LENGTH (if d_gapless h then d_last h else 0)) as [X|X]. { unfold FRAME_LENGTH in X. destruct (d_gapless h); lia. }
  assert (RP := rate_pos (d_rate h) RA). destruct (N.eqb_spec (mpc_rate (d_rate h)) 0); [lia|]. fold (base7 log_peak h 0 0). destruct (N.eqb_spec (d_frames h) 0) as [Z|NZ]; [reflexivity|].
  fold (length7 h). unfold u64_mul at 1. destruct (N.ltb_spec U64_MAX (d_frames h * FRAME_LENGTH)) as [Y|Y]. { unfold U64_MAX, FRAME_LENGTH in Y. lia. } cbn [bind].
  assert (T : (if d_gapless h then let? less := u64_sub FRAME_LENGTH (if d_gapless h then d_last h else 0) in u64_sub (d_frames h * FRAME_LENGTH) less else u64_sub (d_frames h * FRAME_LENGTH) SYNTH_DELAY) = Ok (samples7 h)).
  { unfold samples7, u64_sub, FRAME_LENGTH, SYNTH_DELAY. destruct (d_gapless h).
    - destruct (N.ltb_spec 1152 (d_last h)); [lia|]. cbn [bind]. destruct (N.ltb_spec (d_frames h * 1152) (1152 - d_last h)); [lia|reflexivity].
    - destruct (N.ltb_spec (d_frames h * 1152) 481); [lia|reflexivity]. }
  rewrite T. cbn [bind]. destruct (u64_mul sl 8) as [b8| |]; try reflexivity. cbn [bind]. destruct (u64_mul b8 (mpc_rate (d_rate h))) as [br| |]; try reflexivity. cbn [bind].
  unfold u64_mul. destruct (N.ltb_spec U64_MAX (samples7 h * 1000)) as [W|W]. { exfalso. unfold samples7, U64_MAX in W. destruct (d_gapless h); lia. } cbn [bind]. reflexivity.
Qed.

(** ** Versions 4 to 6 *)
Definition length6 (h : head6) : N := (2 * (samples6 h * 1000) + 44100) / (2 * 44100).
Definition rate6 (h : head6) (sl : N) : N := to_int U32_MAX (r_div (r_div (r_mul (r_mul (of_int sl) (8, 1)) (of_int 44100)) (of_int (FRAME_LENGTH * frames6 h - 576))) (of_int FRAME_LENGTH)).
Lemma sv6_shape : forall strict h rest sl, head6_ok h -> (strict = true -> plain6 h) ->
  sv6_read strict sl (head6_bytes h ++ rest) =
  if frames6 h =? 0 then Ok (mk6 0 2 44100 (b_rate h) (b_ms h) (b_version h) (b_band h) 0)
  else let? d := u64_div_round (samples6 h * 1000) 44100 in Ok (mk6 d 2 44100 (rate6 h sl) (b_ms h) (b_version h) (b_band h) (frames6 h)).
Proof.
  intros strict h rest sl (RA & VE & BA & BL & FR & RE) PL. unfold sv6_read, head6_bytes. rewrite <- !app_assoc. assert (B1 := bit1_lt (b_is h)). assert (B2 := bit1_lt (b_ms h)).
  set (w0 := b_rate h * 2 ^ 23 + bit1 (b_is h) * 2 ^ 22 + bit1 (b_ms h) * 2 ^ 21 + b_version h * 2 ^ 11 + b_band h * 2 ^ 6 + b_block h). rewrite le4 by (unfold w0; lia). cbn [io bind].
  rewrite le4 by (destruct (b_version h =? 4); lia). cbn [io bind]. rewrite read_exact_app by auto. cbn [io bind].
  assert (F1 : N.land (N.shiftr w0 23) 511 = b_rate h). { apply (field w0 23 9 0 (b_rate h) (bit1 (b_is h) * 2 ^ 22 + bit1 (b_ms h) * 2 ^ 21 + b_version h * 2 ^ 11 + b_band h * 2 ^ 6 + b_block h)); [unfold w0; lia|lia|lia]. }
  assert (F2 : N.land (N.shiftr w0 22) 1 = bit1 (b_is h)). { apply (field w0 22 1 (b_rate h) (bit1 (b_is h)) (bit1 (b_ms h) * 2 ^ 21 + b_version h * 2 ^ 11 + b_band h * 2 ^ 6 + b_block h)); [unfold w0; lia|lia|lia]. }
  assert (F3 : N.land (N.shiftr w0 21) 1 = bit1 (b_ms h)). { apply (field w0 21 1 (b_rate h * 2 + bit1 (b_is h)) (bit1 (b_ms h)) (b_version h * 2 ^ 11 + b_band h * 2 ^ 6 + b_block h)); [unfold w0; lia|lia|lia]. }
  assert (F4 : N.land (N.shiftr w0 11) 1023 = b_version h). { apply (field w0 11 10 (b_rate h * 4 + bit1 (b_is h) * 2 + bit1 (b_ms h)) (b_version h) (b_band h * 2 ^ 6 + b_block h)); [unfold w0; lia|lia|lia]. }
  assert (F5 : N.land (N.shiftr w0 6) 31 = b_band h). { apply (field w0 6 5 (b_rate h * 2 ^ 12 + bit1 (b_is h) * 2 ^ 11 + bit1 (b_ms h) * 2 ^ 10 + b_version h) (b_band h) (b_block h)); [unfold w0; lia|lia|lia]. }
  assert (F6 : N.land w0 63 = b_block h). { rewrite <- (N.shiftr_0_r w0). apply (field w0 0 6 (b_rate h * 2 ^ 17 + bit1 (b_is h) * 2 ^ 16 + bit1 (b_ms h) * 2 ^ 15 + b_version h * 2 ^ 5 + b_band h) (b_block h) 0); [unfold w0; lia|lia|lia]. }
  rewrite F1, F2, F3, F4, F5, F6, !bit1_eq. destruct (N.ltb_spec (b_version h) 4); [lia|]. destruct (N.ltb_spec 6 (b_version h)); [lia|]. cbn [orb].
  assert (FC : (if 5 <=? b_version h then if b_version h =? 4 then b_frames h * 2 ^ 16 + b_low h else b_frames h else N.shiftr (if b_version h =? 4 then b_frames h * 2 ^ 16 + b_low h else b_frames h) 16) = b_frames h).
  { destruct (N.leb_spec 5 (b_version h)); destruct (N.eqb_spec (b_version h) 4); try lia. rewrite N.shiftr_div_pow2. symmetry. apply (N.div_unique _ _ _ (b_low h)); lia. }
  rewrite FC.
  assert (S1 : strict && negb (b_rate h =? 0) = false /\ strict && b_is h = false /\ strict && negb (b_block h =? 1) = false). { destruct strict; [|auto]. destruct (PL eq_refl) as (-> & -> & ->). auto. }
  destruct S1 as (-> & -> & ->).
  assert (FE : (if b_version h <? 6 then b_frames h - 1 else b_frames h) = frames6 h). { unfold frames6. destruct (N.ltb_spec (b_version h) 6), (N.eqb_spec (b_version h) 6); auto; lia. } rewrite FE.
  destruct (N.eqb_spec (frames6 h) 0) as [->|NZ]; [reflexivity|]. fold (samples6 h). change (frames6 h * FRAME_LENGTH - SYNTH_DELAY) with (samples6 h).
  assert (FB : frames6 h < 2 ^ 32). { unfold frames6. revert FR. destruct (b_version h =? 4), (b_version h =? 6); lia. }
  unfold u64_mul. destruct (N.ltb_spec U64_MAX (samples6 h * 1000)) as [W|W]. { exfalso. unfold samples6, U64_MAX in W. lia. } cbn [bind]. reflexivity.
Qed.
