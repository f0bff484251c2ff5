(** Property theorems for lofty/src/util/math.rs (C36, C37). *)
From Verif Require Import BaseLemmas MathModel.

(** C37: [q] is a/b rounded to the nearest integer, ties upwards: q - 1/2 <= a/b < q + 1/2. *)
Theorem C37_div_round : forall max a b,
  match div_round max a b with
  | Ok q => b <> 0 /\ 2 * q * b <= 2 * a + b < 2 * (q + 1) * b
  | Err _ => False
  | Panic => b = 0 \/ max < a + b / 2
  end.
Proof.
  intros. unfold div_round. rewrite N.shiftr_div_pow2. change (2 ^ 1) with 2.
  destruct (max <? a + b / 2) eqn:E. right; lia.
  destruct (b =? 0) eqn:E2. left; lia.
  apply N.eqb_neq in E2. split; auto.
  remember (a + b / 2) as s. pose proof (N.div_mod s b E2). pose proof (N.mod_lt s b E2).
  remember (s / b) as q. pose proof (N.div_mod b 2). remember (b / 2) as h.
  assert (B : b = 2 * h \/ b = 2 * h + 1) by lia. clear - B Heqs H H0 E2.
  remember (b * q) as bq. replace (2 * q * b) with (2 * bq) by lia. replace (2 * (q + 1) * b) with (2 * bq + 2 * b) by lia. lia.
Qed.
Print Assumptions C37_div_round.
Example C37_ex : div_round U32_MAX 800 1500 = Ok 1 /\ div_round U32_MAX 1500 4000 = Ok 0 /\ div_round 255 200 120 = Panic.
Proof. vm_compute. auto. Qed.
(** The documentation's note that a result below 1 becomes 1 is not what happens. *)
Theorem C37_doc_note_refuted : ~ (forall a b, 0 < a -> 0 < b -> a + b / 2 <= U32_MAX -> exists q, div_round U32_MAX a b = Ok q /\ 1 <= q).
Proof.
  intro H. destruct (H 1500 4000) as (q & E & L); try reflexivity. vm_compute. discriminate. vm_compute in E. injection E as <-. lia.
Qed.
Print Assumptions C37_doc_note_refuted.

(** C36. An f64 bit pattern is sign * 2^63 + exponent * 2^52 + mantissa. *)
Definition f64_sign (b : N) : N := b / 2 ^ 63.
Definition f64_exp (b : N) : N := (b / 2 ^ 52) mod 2 ^ 11.
Definition f64_man (b : N) : N := b mod 2 ^ 52.

Lemma lor_add' : forall a b k, a < 2 ^ k -> N.lor (b * 2 ^ k) a = b * 2 ^ k + a.
Proof. intros. rewrite N.lor_comm, lor_add by auto. lia. Qed.

Lemma from_be_fields : forall (s : bool) e f, e < 2 ^ 15 -> f < 2 ^ 64 ->
  f80_from_be (be_enc 2 ((if s then 2 ^ 15 else 0) + e) ++ be_enc 8 f) = mkF80 s e f.
Proof.
  intros. unfold f80_from_be. rewrite dropN_app by apply be_enc_len. rewrite be_dec_enc by (change (256 ^ N.of_nat 8) with (2 ^ 64); auto).
  remember ((if s then 2 ^ 15 else 0) + e) as v.
  change (be_enc 2 v) with [v / 256 mod 256; v mod 256]. cbn [app nth].
  assert (V : v < 65536) by (destruct s; subst; change (2 ^ 15) with 32768 in *; lia).
  assert (B0 : v / 256 < 256) by lia. rewrite (N.mod_small (v / 256)) by auto.
  f_equal.
  - change 0x80 with (N.shiftl (N.ones 1) 7). rewrite land_mask_shift. change (2 ^ 7) with 128. change (2 ^ 1) with 2.
    destruct s; subst v; change (2 ^ 15) with 32768 in *.
    + assert (((32768 + e) / 256 / 128) mod 2 * 128 = 128) by lia. rewrite H1. reflexivity.
    + assert (((0 + e) / 256 / 128) mod 2 * 128 = 0) by lia. rewrite H1. reflexivity.
  - change 0x7F with (N.ones 7). rewrite land_ones_mod. change (2 ^ 7) with 128. rewrite N.shiftl_mul_pow2.
    rewrite lor_add'. 2: change (2 ^ 8) with 256; lia. change (2 ^ 8) with 256.
    destruct s; subst v; change (2 ^ 15) with 32768 in *; lia.
Qed.

Lemma normal_bits : forall (s : bool) e f, 15361 <= e <= 17406 -> 2 ^ 63 <= f < 2 ^ 64 ->
  f80_as_f64 (mkF80 s e f) = (if s then 1 else 0) * 2 ^ 63 + (e - 15360) * 2 ^ 52 + (f - 2 ^ 63) / 2 ^ 11.
Proof.
  intros s e f E F. unfold f80_as_f64. cbn [f_signed f_exponent f_fraction].
  replace (e =? 32767) with false by lia. replace (f =? 0) with false by lia.
  assert (I : i_as_u64 (Z.of_N e - 16383 + 1023) = e - 15360).
  { unfold i_as_u64. rewrite Z.mod_small by lia. lia. }
  rewrite I. change 0x7FFFFFFFFFFFFFFF with (N.ones 63). rewrite land_ones_mod.
  assert (Fm : f mod 2 ^ 63 = f - 2 ^ 63).
  { symmetry. apply (N.mod_unique _ _ 1). change (2^63) with 9223372036854775808 in *. change (2^64) with 18446744073709551616 in *. lia. lia. }
  rewrite Fm. rewrite N.shiftr_div_pow2, !N.shiftl_mul_pow2.
  assert (S1 : ((if s then 1 else 0) * 2 ^ 63) mod 2 ^ 64 = (if s then 1 else 0) * 2 ^ 63) by (destruct s; reflexivity). rewrite S1.
  assert (S2 : ((e - 15360) * 2 ^ 52) mod 2 ^ 64 = (e - 15360) * 2 ^ 52).
  { apply N.mod_small. change (2^52) with 4503599627370496. change (2^64) with 18446744073709551616. lia. }
  rewrite S2. rewrite (lor_add' ((e - 15360) * 2 ^ 52)). 
  2: { change (2^52) with 4503599627370496. change (2^63) with 9223372036854775808. lia. }
  assert (S3 : (f - 2 ^ 63) / 2 ^ 11 < 2 ^ 52).
  { apply N.div_lt_upper_bound. discriminate. change (2^11 * 2^52) with (2^63). change (2^63) with 9223372036854775808 in *. change (2^64) with 18446744073709551616 in *. lia. }
  replace ((if s then 1 else 0) * 2 ^ 63 + (e - 15360) * 2 ^ 52) with (((if s then 1 else 0) * 2 ^ 11 + (e - 15360)) * 2 ^ 52) by (destruct s; lia).
  now rewrite lor_add'.
Qed.

(** Every normalised 80-bit number (integer bit set) whose exponent an f64 can hold is converted by truncation:
    |x| = f * 2^(e-16446) and the result is m * 2^(e-16435) with m = floor(f / 2^11), same sign. *)
Theorem C36_normal_partial : forall (s : bool) e f, 15361 <= e <= 17406 -> 2 ^ 63 <= f < 2 ^ 64 ->
  let b := f80_as_f64 (f80_from_be (be_enc 2 ((if s then 2 ^ 15 else 0) + e) ++ be_enc 8 f)) in
  f64_sign b = (if s then 1 else 0) /\ f64_exp b = e - 15360 /\ 1 <= f64_exp b <= 2046 /\
  (2 ^ 52 + f64_man b) * 2 ^ 11 <= f < (2 ^ 52 + f64_man b + 1) * 2 ^ 11.
Proof.
  intros s e f E F b. subst b. rewrite from_be_fields.
  2: { change (2^15) with 32768. lia. } 2: tauto.
  rewrite normal_bits by auto. unfold f64_sign, f64_exp, f64_man.
  change (2^52) with 4503599627370496. change (2^63) with 9223372036854775808 in *. change (2^64) with 18446744073709551616 in *.
  change (2^11) with 2048. remember ((f - 9223372036854775808) / 2048) as g.
  assert (G : g * 2048 <= f - 9223372036854775808 < (g + 1) * 2048) by (subst g; lia).
  assert (Gb : g < 4503599627370496) by lia. clear Heqg.
  remember (e - 15360) as x. assert (1 <= x <= 2046) by lia. clear Heqx.
  destruct s.
  - assert (A : (1 * 9223372036854775808 + x * 4503599627370496 + g) mod 4503599627370496 = g).
    { replace (1 * 9223372036854775808 + x * 4503599627370496 + g) with (g + (2048 + x) * 4503599627370496) by lia.
      rewrite N.mod_add by discriminate. apply N.mod_small; auto. }
    assert (B : (1 * 9223372036854775808 + x * 4503599627370496 + g) / 4503599627370496 = 2048 + x).
    { replace (1 * 9223372036854775808 + x * 4503599627370496 + g) with (g + (2048 + x) * 4503599627370496) by lia.
      rewrite N.div_add by discriminate. rewrite N.div_small by auto. lia. }
    rewrite A, B. lia.
  - assert (A : (0 * 9223372036854775808 + x * 4503599627370496 + g) mod 4503599627370496 = g).
    { replace (0 * 9223372036854775808 + x * 4503599627370496 + g) with (g + x * 4503599627370496) by lia.
      rewrite N.mod_add by discriminate. apply N.mod_small; auto. }
    assert (B : (0 * 9223372036854775808 + x * 4503599627370496 + g) / 4503599627370496 = x).
    { replace (0 * 9223372036854775808 + x * 4503599627370496 + g) with (g + x * 4503599627370496) by lia.
      rewrite N.div_add by discriminate. rewrite N.div_small by auto. lia. }
    rewrite A, B. lia.
Qed.
Print Assumptions C36_normal_partial.
(** Zeros, infinities (all fraction bits clear) and NaNs. *)
Theorem C36_special_partial : forall (s : bool) e f, e < 2 ^ 15 -> f < 2 ^ 64 ->
  let b := f80_as_f64 (f80_from_be (be_enc 2 ((if s then 2 ^ 15 else 0) + e) ++ be_enc 8 f)) in
  (e <> 32767 -> f = 0 -> b = (if s then 1 else 0) * 2 ^ 63) /\
  (e = 32767 -> f = 0 -> f64_sign b = (if s then 1 else 0) /\ f64_exp b = 2047 /\ f64_man b = 0) /\
  (e = 32767 -> f <> 0 -> f64_sign b = (if s then 1 else 0) /\ f64_exp b = 2047 /\ f64_man b <> 0).
Proof.
  intros s e f E F b. subst b. rewrite from_be_fields by auto. unfold f80_as_f64. cbn [f_signed f_exponent f_fraction].
  repeat split; intros; subst; cbn [N.eqb Pos.eqb]; try replace (e =? 32767) with false by lia; try replace (f =? 0) with false by lia;
    destruct s; vm_compute; auto; discriminate.
Qed.
Print Assumptions C36_special_partial.
Example C36_ex : f80_as_f64 (f80_from_be [0x40; 0x0E; 0xBB; 0x80; 0; 0; 0; 0; 0; 0]) = 0x40E7700000000000 /\
  0x400E - 15360 = 0x40E.
Proof. vm_compute. auto. Qed.
(** Findings: an exponent above the f64 range does not overflow to infinity but produces an unrelated finite
    number (here 2^1025 becomes -0.0); a value without integer bit is read as if it had one; and the usual
    encoding of infinity (integer bit set) becomes a NaN. *)
Theorem C36_out_of_range_refuted : ~ (forall (s : bool) e f, 17406 < e < 32767 -> 2 ^ 63 <= f < 2 ^ 64 ->
  f64_exp (f80_as_f64 (mkF80 s e f)) = 2047).
Proof. intro H. specialize (H false 17408 (2 ^ 63)). vm_compute in H. discriminate H; split; congruence. Qed.
Print Assumptions C36_out_of_range_refuted.
Theorem C36_sign_refuted : exists e f, 2 ^ 63 <= f < 2 ^ 64 /\ e < 32767 /\ f64_sign (f80_as_f64 (mkF80 false e f)) = 1.
Proof. exists 17408, (2 ^ 63). vm_compute. repeat split; congruence. Qed.
Print Assumptions C36_sign_refuted.
Theorem C36_unnormal_refuted : exists e f f', f < 2 ^ 63 /\ f' = f + 2 ^ 63 /\ 15361 <= e <= 17406 /\
  f80_as_f64 (mkF80 false e f) = f80_as_f64 (mkF80 false e f').
Proof. exists 16383, 2048, (2048 + 2 ^ 63). vm_compute. repeat split; congruence. Qed.
Print Assumptions C36_unnormal_refuted.
Theorem C36_infinity_refuted : f64_man (f80_as_f64 (mkF80 false 32767 (2 ^ 63))) <> 0.
Proof. vm_compute. discriminate. Qed.
Print Assumptions C36_infinity_refuted.
