(** Proofs about ADTS headers and streams. *)
From Verif Require Import BaseLemmas StrLemmas Id3v2HeaderProof ApeProof2 TextProof MpegProof5 FrameTotalThm Id3v1Thm.
From Verif Require Import Id3v1Model ApeModel FrameReadModel Id3v2HeaderModel.
From Verif Require Export AacSpec.

(** ** Bits *)
Lemma byte_bits : forall w s k j, k + j <= 8 -> N.land (N.shiftr (N.land (N.shiftr w s) 255) k) (N.ones j) = N.land (N.shiftr w (s + k)) (N.ones j).
Proof.
  intros w s k j L. apply N.bits_inj_iff. intros n. rewrite !N.land_spec, !N.shiftr_spec', N.land_spec, N.shiftr_spec'. change 255 with (N.ones 8).
  destruct (N.lt_ge_cases n j) as [H|H].
  - rewrite (N.ones_spec_low j n) by auto. rewrite N.ones_spec_low by lia. rewrite !andb_true_r. f_equal. lia.
  - now rewrite (N.ones_spec_high j n), !andb_false_r by auto.
Qed.
Lemma join_bits : forall w s i j, N.lor (N.shiftl (N.land (N.shiftr w (s + j)) (N.ones i)) j) (N.land (N.shiftr w s) (N.ones j)) = N.land (N.shiftr w s) (N.ones (i + j)).
Proof.
  intros. apply N.bits_inj_iff. intros n. rewrite N.lor_spec, !N.land_spec, !N.shiftr_spec'. destruct (N.lt_ge_cases n j) as [H|H].
  - rewrite N.shiftl_spec_low, !N.ones_spec_low by lia. reflexivity.
  - rewrite N.shiftl_spec_high', N.land_spec, N.shiftr_spec' by auto. rewrite (N.ones_spec_high j n) by auto. rewrite andb_false_r, orb_false_r.
    replace (n - j + (s + j)) with (n + s) by lia. f_equal. destruct (N.lt_ge_cases n (i + j)); [rewrite !N.ones_spec_low by lia|rewrite !N.ones_spec_high by lia]; reflexivity.
Qed.
Lemma enc7 : forall w, be_enc 7 w = map (fun s => N.land (N.shiftr w s) 255) [48; 40; 32; 24; 16; 8; 0].
Proof.
  intros w. assert (E : forall s, N.land (N.shiftr w s) 255 = w / 2 ^ s mod 256). { intros. change 255 with (N.ones 8). now rewrite N.land_ones, N.shiftr_div_pow2. }
  cbn [map]. rewrite !E. unfold be_enc, le_enc. cbn [rev app]. rewrite !N.div_div by discriminate. change (w / 2 ^ 0) with (w / 1). rewrite N.div_1_r. reflexivity.
Qed.
Lemma abit_lt : forall b, abit b < 2. Proof. intros []; cbv; auto. Qed.
Lemma kind_lt : forall f, avalid f -> kind_word f < 2 ^ 27 /\ 0xFFF * 2 ^ 15 <= kind_word f.
Proof.
  intros f (P & R & C & _). unfold kind_word. pose proof (abit_lt (x_v2 f)). pose proof (abit_lt (negb (x_crc f))). pose proof (abit_lt (x_private f)). pose proof (abit_lt (x_original f)). lia.
Qed.
Lemma kind_fields : forall f, avalid f -> let w := kind_word f in
  N.land (N.shiftr w 14) 1 = abit (x_v2 f) /\ N.land (N.shiftr w 11) 1 = abit (negb (x_crc f)) /\ N.land (N.shiftr w 9) 3 = x_profile f /\
  N.land (N.shiftr w 5) 15 = x_rate f /\ N.land (N.shiftr w 1) 7 = x_config f /\ N.land (N.shiftr w 0) 1 = abit (x_original f).
Proof.
  intros f (P & R & C & _) w. pose proof (abit_lt (x_v2 f)) as H1. pose proof (abit_lt (negb (x_crc f))) as H2. pose proof (abit_lt (x_private f)) as H3. pose proof (abit_lt (x_original f)) as H4.
  repeat split.
  - apply (field w 14 1 0xFFF _ (abit (negb (x_crc f)) * 2 ^ 11 + x_profile f * 2 ^ 9 + x_rate f * 2 ^ 5 + abit (x_private f) * 2 ^ 4 + x_config f * 2 + abit (x_original f))); [unfold w, kind_word; lia|lia|lia].
  - apply (field w 11 1 (0xFFF * 2 ^ 3 + abit (x_v2 f) * 2 ^ 2) _ (x_profile f * 2 ^ 9 + x_rate f * 2 ^ 5 + abit (x_private f) * 2 ^ 4 + x_config f * 2 + abit (x_original f))); [unfold w, kind_word; lia|lia|lia].
  - apply (field w 9 2 (0xFFF * 2 ^ 4 + abit (x_v2 f) * 2 ^ 3 + abit (negb (x_crc f))) _ (x_rate f * 2 ^ 5 + abit (x_private f) * 2 ^ 4 + x_config f * 2 + abit (x_original f))); [unfold w, kind_word; lia|lia|lia].
  - apply (field w 5 4 (0xFFF * 2 ^ 6 + abit (x_v2 f) * 2 ^ 5 + abit (negb (x_crc f)) * 2 ^ 2 + x_profile f) _ (abit (x_private f) * 2 ^ 4 + x_config f * 2 + abit (x_original f))); [unfold w, kind_word; lia|lia|lia].
  - apply (field w 1 3 (0xFFF * 2 ^ 11 + abit (x_v2 f) * 2 ^ 10 + abit (negb (x_crc f)) * 2 ^ 7 + x_profile f * 2 ^ 5 + x_rate f * 2 + abit (x_private f)) _ (abit (x_original f))); [unfold w, kind_word; lia|lia|lia].
  - apply (field w 0 1 (0xFFF * 2 ^ 14 + abit (x_v2 f) * 2 ^ 13 + abit (negb (x_crc f)) * 2 ^ 10 + x_profile f * 2 ^ 8 + x_rate f * 2 ^ 4 + abit (x_private f) * 2 ^ 3 + x_config f) _ 0); [unfold w, kind_word; lia|lia|lia].
Qed.
Definition low (f : afields) (len : N) : N :=
  abit (x_home f) * 2 ^ 28 + abit (x_id_bit f) * 2 ^ 27 + abit (x_id_start f) * 2 ^ 26 + len * 2 ^ 13 + x_fullness f * 2 ^ 2 + x_blocks f.
Lemma low_lt : forall f len, avalid f -> len < 2 ^ 13 -> low f len < 2 ^ 29.
Proof. intros f len (_ & _ & _ & F & B) L. unfold low. pose proof (abit_lt (x_home f)). pose proof (abit_lt (x_id_bit f)). pose proof (abit_lt (x_id_start f)). lia. Qed.
Lemma aword_low : forall f len, aword f len = kind_word f * 2 ^ 29 + low f len. Proof. intros. unfold aword, low. lia. Qed.
Lemma aword_lt : forall f len, avalid f -> len < 2 ^ 13 -> aword f len < 2 ^ 56.
Proof. intros f len V L. rewrite aword_low. pose proof (low_lt f len V L). pose proof (kind_lt f V). lia. Qed.
Lemma high : forall f len k m, avalid f -> len < 2 ^ 13 -> N.land (N.shiftr (aword f len) (29 + k)) m = N.land (N.shiftr (kind_word f) k) m.
Proof.
  intros f len k m V L. rewrite N.add_comm, <- (N.shiftr_shiftr _ 29 k) || rewrite <- N.shiftr_shiftr. f_equal. f_equal. rewrite aword_low, N.shiftr_div_pow2, N.div_add_l by discriminate.
  rewrite N.div_small by (apply low_lt; auto). lia.
Qed.
Definition header_of_frame (f : afields) (len : N) : adts :=
  mkAdts (if x_v2 f then AV2 else AV4) (atype f) (arate f) (x_config f) (x_home f) (x_original f) len (len * arate f / 1024 * 8 / 1024) (be_enc 7 (aword f len)) (x_crc f).
Lemma decoded : forall f len rest, avalid f -> len < 2 ^ 13 -> adts_read (be_enc 7 (aword f len) ++ rest) = Ok (header_of_frame f len).
Proof.
  intros f len rest V L. unfold adts_read. rewrite read_exact_app by (rewrite be_enc_len; reflexivity).
  pose proof (kind_fields f V) as K. cbv zeta in K. destruct K as (K1 & K2 & K3 & K4 & K5 & K6).
  assert (V' := V). destruct V' as (P & R & C & F & B).
  pose proof (abit_lt (x_home f)) as A1. pose proof (abit_lt (x_id_bit f)) as A2. pose proof (abit_lt (x_id_start f)) as A3.
  set (w := aword f len). unfold header_of_frame. fold w. cbv zeta.
  replace (nth 1 (be_enc 7 w) 0) with (N.land (N.shiftr w 40) 255) by now rewrite enc7. replace (nth 2 (be_enc 7 w) 0) with (N.land (N.shiftr w 32) 255) by now rewrite enc7.
  replace (nth 3 (be_enc 7 w) 0) with (N.land (N.shiftr w 24) 255) by now rewrite enc7. replace (nth 4 (be_enc 7 w) 0) with (N.land (N.shiftr w 16) 255) by now rewrite enc7.
  replace (nth 5 (be_enc 7 w) 0) with (N.land (N.shiftr w 8) 255) by now rewrite enc7.
  assert (E1 : N.land (N.shiftr (N.land (N.shiftr w 32) 255) 2) 15 = x_rate f). { rewrite <- K4. etransitivity; [exact (byte_bits w 32 2 4 ltac:(lia))|]. now apply (high f len 5). }
  assert (E2 : N.land (N.shiftr (N.land (N.shiftr w 32) 255) 6) 3 = x_profile f). { rewrite <- K3. etransitivity; [exact (byte_bits w 32 6 2 ltac:(lia))|]. now apply (high f len 9). }
  assert (E3 : N.land (N.shiftr (N.land (N.shiftr w 40) 255) 3) 1 = abit (x_v2 f)). { rewrite <- K1. etransitivity; [exact (byte_bits w 40 3 1 ltac:(lia))|]. now apply (high f len 14). }
  assert (E4 : N.land (N.land (N.shiftr w 40) 255) 1 = abit (negb (x_crc f))). { rewrite <- K2, <- (N.shiftr_0_r (N.land (N.shiftr w 40) 255)). etransitivity; [exact (byte_bits w 40 0 1 ltac:(lia))|]. now apply (high f len 11). }
  assert (E5 : N.land (N.shiftr (N.land (N.shiftr w 24) 255) 5) 1 = abit (x_original f)). { rewrite <- K6. etransitivity; [exact (byte_bits w 24 5 1 ltac:(lia))|]. now apply (high f len 0). }
  assert (E6 : N.land (N.shiftr (N.land (N.shiftr w 24) 255) 4) 1 = abit (x_home f)).
  { etransitivity; [exact (byte_bits w 24 4 1 ltac:(lia))|]. apply (field w 28 1 (kind_word f) _ (abit (x_id_bit f) * 2 ^ 27 + abit (x_id_start f) * 2 ^ 26 + len * 2 ^ 13 + x_fullness f * 2 ^ 2 + x_blocks f)); [unfold w, aword; lia|lia|lia]. }
  assert (E7 : N.lor (N.shiftl (N.land (N.land (N.shiftr w 32) 255) 1) 2) (N.land (N.shiftr (N.land (N.shiftr w 24) 255) 6) 3) = x_config f).
  { rewrite <- K5, <- (N.shiftr_0_r (N.land (N.shiftr w 32) 255)). change 1 with (N.ones 1) at 1. change 3 with (N.ones 2). rewrite (byte_bits w 32 0 1), (byte_bits w 24 6 2) by lia. etransitivity; [exact (join_bits w 30 1 2)|]. now apply (high f len 1). }
  assert (E8 : N.lor (N.lor (N.shiftl (N.land (N.land (N.shiftr w 24) 255) 3) 11) (N.shiftl (N.land (N.shiftr w 16) 255) 3)) (N.shiftr (N.land (N.shiftr w 8) 255) 5) = len).
  { rewrite <- N.lor_assoc. rewrite <- (N.shiftr_0_r (N.land (N.shiftr w 24) 255)). change 3 with (N.ones 2) at 1. rewrite (byte_bits w 24 0 2) by lia.
    assert (T : N.shiftr (N.land (N.shiftr w 8) 255) 5 = N.land (N.shiftr w 13) (N.ones 3)).
    { change 13 with (8 + 5). rewrite <- (byte_bits w 8 5 3) by lia. symmetry. rewrite N.land_ones. apply N.mod_small. rewrite N.shiftr_div_pow2. change 255 with (N.ones 8). rewrite N.land_ones.
      pose proof (N.mod_lt (N.shiftr w 8) (2 ^ 8) ltac:(discriminate)). apply N.div_lt_upper_bound; [discriminate|]. lia. }
    rewrite T. rewrite (join_bits w 13 8 3 : N.lor (N.shiftl (N.land (N.shiftr w 16) 255) 3) (N.land (N.shiftr w 13) (N.ones 3)) = _). etransitivity; [exact (join_bits w 13 2 11)|].
    apply (field w 13 13 (kind_word f * 2 ^ 3 + abit (x_home f) * 2 ^ 2 + abit (x_id_bit f) * 2 + abit (x_id_start f)) _ (x_fullness f * 2 ^ 2 + x_blocks f)); [unfold w, aword; lia|lia|lia]. }
  rewrite E1, E2, E3, E4, E5, E6, E7, E8. destruct (N.eqb_spec (x_rate f) 15) as [X|_]; [lia|].
  assert (ER : nth (N.to_nat (x_rate f)) AAC_RATES 0 = arate f).
  { unfold arate. assert (X : x_rate f = N.of_nat (N.to_nat (x_rate f))) by lia. revert X. generalize (N.to_nat (x_rate f)). intros n X. do 13 (destruct n as [|n]; [reflexivity|]). lia. }
  rewrite ER. f_equal. f_equal.
  - now destruct (x_v2 f).
  - unfold atype. destruct (N.eqb_spec (x_profile f) 0) as [->|]; auto. destruct (N.eqb_spec (x_profile f) 1) as [->|]; auto. destruct (N.eqb_spec (x_profile f) 2) as [->|]; auto.
    assert (x_profile f = 3) as -> by lia. reflexivity.
  - now destruct (x_home f).
  - now destruct (x_original f).
  - now destruct (x_crc f).
Qed.
