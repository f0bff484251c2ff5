(** The floating point arithmetic of the AIFF properties. *)
From Verif Require Import BaseLemmas MathModel MathThm IffModel AiffModel.

Lemma rne_exact : forall q b, 0 < b -> rne (q * b) b = q.
Proof. intros q b B. unfold rne. rewrite N.mod_mul, N.div_mul by lia. change (2 * 0) with 0. destruct (N.ltb_spec 0 b); [reflexivity|lia]. Qed.
Lemma rne_near : forall a b, 0 < b -> 2 * a <= 2 * (rne a b * b) + b /\ 2 * (rne a b * b) <= 2 * a + b.
Proof.
  intros a b B. unfold rne. assert (D := N.div_mod a b ltac:(lia)). assert (M := N.mod_lt a b ltac:(lia)). set (q := a / b) in *. set (r := a mod b) in *. clearbody q r.
  destruct (N.ltb_spec (2 * r) b); cbn [orb]; [nia|]. destruct (N.eqb_spec (2 * r) b); cbn [andb]; [|nia]. destruct (N.even q); nia.
Qed.
Lemma rne_mono : forall a b m, 0 < b -> m * b <= a -> m <= rne a b.
Proof.
  intros a b m B H. unfold rne. assert (m <= a / b) by (apply N.div_le_lower_bound; [lia|]; nia). destruct (_ || _); lia.
Qed.
Lemma pow2_pos : forall k, 0 < 2 ^ k. Proof. intro k. apply N.neq_0_lt_0. apply N.pow_nonzero. discriminate. Qed.
Lemma scale_pos : 0 < SCALE. Proof. unfold SCALE. apply pow2_pos. Qed.
Lemma pow_split : forall a b, a <= b -> 2 ^ b = 2 ^ (b - a) * 2 ^ a. Proof. intros. rewrite <- N.pow_add_r. f_equal. lia. Qed.
(** Integers below 2^53 are exact. *)
Lemma round_int : forall n K, 0 < n -> n < 2 ^ 53 -> 0 < K -> f64_round (n * K, K) = (n * SCALE, SCALE).
Proof.
  intros n K N0 NB K0. unfold f64_round. destruct (N.eqb_spec (n * K) 0); [nia|]. replace (n * K * SCALE / K) with (n * SCALE) by (replace (n * K * SCALE) with (n * SCALE * K) by lia; rewrite N.div_mul; lia).
  assert (L : N.log2 (n * SCALE) = 320 + N.log2 n). { unfold SCALE. rewrite N.log2_mul_pow2 by lia. reflexivity. }
  rewrite L. assert (LB : N.log2 n < 53) by (apply N.log2_lt_pow2; auto).
  assert (U : SCALE = 2 ^ (320 - (320 + N.log2 n - 52)) * 2 ^ (320 + N.log2 n - 52)) by (unfold SCALE; apply pow_split; lia).
  set (u := 2 ^ (320 + N.log2 n - 52)) in *. set (v := 2 ^ (320 - (320 + N.log2 n - 52))) in *. assert (0 < u) by apply pow2_pos. clearbody u v.
  f_equal. replace (n * K * SCALE) with (n * v * (K * u)) by (rewrite U; lia). rewrite rne_exact by nia. rewrite U. lia.
Qed.
Lemma of_int_exact : forall n, 0 < n -> n < 2 ^ 53 -> of_int n = (n * SCALE, SCALE).
Proof. intros n A B. unfold of_int. replace (n, 1) with (n * 1, 1) by (f_equal; lia). now apply round_int. Qed.
(** Dividing two integers: the integer part is the exact one. *)
Lemma floor_rne : forall a b K S u v, 0 < b -> 0 < K -> 0 < u -> S = v * u -> b * u * 2 <= S -> 0 < S -> rne (a * K * S) (b * K * u) * u / S = a / b.
Proof.
  intros a b K S u v B0 K0 U0 US BU S0.
  set (D := b * K * u). assert (D0 : 0 < D) by (unfold D; apply N.mul_pos_pos; auto; apply N.mul_pos_pos; auto).
  set (R := rne (a * K * S) D). assert (DM := N.div_mod a b ltac:(lia)). assert (ML := N.mod_lt a b ltac:(lia)). set (k := a / b) in *. set (r := a mod b) in *.
  assert (LOW : k * v <= R). { apply rne_mono; auto. unfold D. rewrite US, DM. replace (k * v * (b * K * u)) with (b * k * K * (v * u)) by lia. apply N.mul_le_mono_r. apply N.mul_le_mono_r. lia. }
  assert (LOW2 : k * S <= R * u). { rewrite US. replace (k * (v * u)) with (k * v * u) by lia. now apply N.mul_le_mono_r. }
  destruct (rne_near (a * K * S) D D0) as [_ UP]. fold R in UP.
  assert (UP2 : 2 * (R * u * b) <= 2 * (a * S) + b * u).
  { apply (N.mul_le_mono_pos_l _ _ K K0). unfold D in UP. replace (K * (2 * (R * u * b))) with (2 * (R * (b * K * u))) by lia. replace (K * (2 * (a * S) + b * u)) with (2 * (a * K * S) + b * K * u) by lia. exact UP. }
  assert (HI : R * u < (k + 1) * S).
  { apply (N.mul_lt_mono_pos_l b _ _ B0). assert (AK : a * S + S <= b * ((k + 1) * S)). { replace (b * ((k + 1) * S)) with ((b * k + b) * S) by lia. replace (a * S + S) with ((a + 1) * S) by lia. apply N.mul_le_mono_r. lia. }
    replace (b * (R * u)) with (R * u * b) by lia. lia. }
  clearbody k R. symmetry. apply (N.div_unique (R * u) S k (R * u - k * S)); lia.
Qed.
Lemma round_div : forall a b K, 0 < a -> a < 2 ^ 51 -> 0 < b -> b < 2 ^ 52 -> 0 < K -> let x := f64_round (a * K, b * K) in fst x / snd x = a / b.
Proof.
  intros a b K A0 AB B0 BB K0. unfold f64_round. destruct (N.eqb_spec (a * K) 0) as [Z|_]. { apply N.eq_mul_0 in Z. lia. }
  replace (a * K * SCALE / (b * K)) with (a * SCALE / b) by (replace (a * K * SCALE) with (a * SCALE * K) by lia; rewrite N.div_mul_cancel_r; lia).
  cbn [fst snd]. set (lg := N.log2 (a * SCALE / b)). set (u := 2 ^ (lg - 52)). assert (U0 : 0 < u) by apply pow2_pos.
  assert (SP := scale_pos).
  assert (Q0 : 2 ^ 52 <= a * SCALE / b).
  { apply N.div_le_lower_bound; [lia|]. assert (2 ^ 52 * 2 ^ 52 <= SCALE) by (unfold SCALE; rewrite <- N.pow_add_r; apply N.pow_le_mono_r; discriminate).
    apply N.le_trans with (2 ^ 52 * 2 ^ 52). apply N.mul_le_mono_r. lia. apply N.le_trans with (1 * SCALE). lia. apply N.mul_le_mono_r. lia. }
  assert (Q1 : 0 < a * SCALE / b) by (apply N.lt_le_trans with (2 ^ 52); auto; reflexivity).
  assert (LG : 52 <= lg) by (unfold lg; apply N.log2_le_pow2; auto).
  assert (UB : u * 2 ^ 52 <= a * SCALE / b). { unfold u. rewrite <- N.pow_add_r. replace (lg - 52 + 52) with lg by lia. unfold lg. now apply N.log2_spec. }
  assert (UB2 : b * (u * 2 ^ 52) <= a * SCALE). { apply N.le_trans with (b * (a * SCALE / b)). now apply N.mul_le_mono_l. apply N.mul_div_le. lia. }
  assert (LGB : lg <= 372).
  { unfold lg. assert (H : a * SCALE / b <= a * SCALE). { apply N.div_le_upper_bound. lia. rewrite <- (N.mul_1_l (a * SCALE)) at 1. apply N.mul_le_mono_r. lia. }
    apply N.log2_le_mono in H. unfold SCALE in H at 2. rewrite N.log2_mul_pow2 in H by lia. assert (N.log2 a < 51) by (apply N.log2_lt_pow2; auto). lia. }
  assert (US : SCALE = 2 ^ (320 - (lg - 52)) * u) by (unfold SCALE, u; apply pow_split; lia).
  apply (floor_rne a b K SCALE u (2 ^ (320 - (lg - 52)))); auto.
  apply (N.mul_le_mono_pos_l _ _ (2 ^ 51)). reflexivity. replace (2 ^ 51 * (b * u * 2)) with (b * (u * 2 ^ 52)) by (change (2 ^ 52) with (2 ^ 51 * 2); lia).
  apply N.le_trans with (a * SCALE); auto. apply N.mul_le_mono_r. lia.
Qed.
Lemma duration_floor : forall frames rate stream file, 0 < frames -> frames < 2 ^ 32 -> 0 < rate -> rate < 2 ^ 32 -> fst (fst (aiff_times frames rate stream file)) = frames * 1000 / rate.
Proof.
  intros frames rate stream file F0 FB R0 RB. change (2 ^ 32) with 4294967296 in *. unfold aiff_times. destruct (N.ltb_spec 0 rate); [|lia]. destruct (N.ltb_spec 0 frames); [|lia]. cbn [andb fst].
  rewrite !of_int_exact by (auto; change (2 ^ 53) with 9007199254740992; lia). assert (SP := scale_pos). unfold r_mul. cbn [fst snd].
  replace (frames * SCALE * 1000) with (frames * 1000 * SCALE) by lia. rewrite N.mul_1_r. rewrite round_int by (auto; try lia; change (2 ^ 53) with 9007199254740992; lia).
  unfold r_div, to_int. cbn [fst snd]. replace (frames * 1000 * SCALE * SCALE) with (frames * 1000 * (SCALE * SCALE)) by lia. replace (SCALE * (rate * SCALE)) with (rate * (SCALE * SCALE)) by lia.
  rewrite round_div; try lia; try (apply N.mul_pos_pos; assumption).
  apply N.min_r. change U64_MAX with 18446744073709551615. apply N.div_le_upper_bound; nia.
Qed.

(** ** The sample rate *)
(** [n] as an 80-bit float: sign 0, exponent 16383 + log2 n, the fraction with its integer bit *)
Definition f80_of (n : N) : bytes := be_enc 2 (16383 + N.log2 n) ++ be_enc 8 (n * 2 ^ (63 - N.log2 n)).
Lemma rate_exact : forall n, 0 < n -> n < 2 ^ 32 -> let bits := f80_as_f64 (f80_from_be (f80_of n)) in
  f64_finite bits = true /\ f64_positive bits = true /\ N.min U32_MAX (f64_round_int (f64_value bits)) = n.
Proof.
  intros n N0 NB. unfold f80_of. assert (L := N.log2_spec n N0). assert (LB : N.log2 n < 32) by (apply N.log2_lt_pow2; auto). set (l := N.log2 n) in *. clearbody l.
  assert (F1 : 2 ^ 63 <= n * 2 ^ (63 - l)). { replace (2 ^ 63) with (2 ^ l * 2 ^ (63 - l)) by (rewrite <- N.pow_add_r; f_equal; lia). apply N.mul_le_mono_r. tauto. }
  assert (F2 : n * 2 ^ (63 - l) < 2 ^ 64). { replace (2 ^ 64) with (2 ^ N.succ l * 2 ^ (63 - l)) by (rewrite <- N.pow_add_r; f_equal; lia). apply N.mul_lt_mono_pos_r. apply pow2_pos. tauto. }
  assert (P15 : 16383 + l < 2 ^ 15) by (change (2 ^ 15) with 32768; lia).
  assert (FB := from_be_fields false (16383 + l) (n * 2 ^ (63 - l)) P15 F2). rewrite N.add_0_l in FB. rewrite FB.
  rewrite normal_bits by (split; auto; lia). rewrite N.mul_0_l, N.add_0_l. replace (16383 + l - 15360) with (1023 + l) by lia.
  assert (M : (n * 2 ^ (63 - l) - 2 ^ 63) / 2 ^ 11 = (n - 2 ^ l) * 2 ^ (52 - l)).
  { replace (n * 2 ^ (63 - l) - 2 ^ 63) with ((n - 2 ^ l) * 2 ^ (52 - l) * 2 ^ 11).
    2:{ rewrite <- N.mul_assoc, <- N.pow_add_r. replace (52 - l + 11) with (63 - l) by lia. rewrite N.mul_sub_distr_r, <- N.pow_add_r. do 2 f_equal. lia. }
    apply N.div_mul. discriminate. }
  rewrite M. set (f := (n - 2 ^ l) * 2 ^ (52 - l)).
  assert (FL : f < 2 ^ 52). { unfold f. replace (2 ^ 52) with (2 ^ l * 2 ^ (52 - l)) by (rewrite <- N.pow_add_r; f_equal; lia). apply N.mul_lt_mono_pos_r. apply pow2_pos. rewrite N.pow_succ_r' in L. lia. }
  assert (EX : AiffModel.f64_exp ((1023 + l) * 2 ^ 52 + f) = 1023 + l). { unfold AiffModel.f64_exp. rewrite N.shiftr_div_pow2. rewrite N.div_add_l by discriminate. rewrite N.div_small by auto. rewrite N.add_0_r. apply N.mod_small. change (2 ^ 11) with 2048. lia. }
  assert (V : f64_value ((1023 + l) * 2 ^ 52 + f) = (n * 2 ^ 1075, 2 ^ 1075)).
  { unfold f64_value. rewrite EX. destruct (N.eqb_spec (1023 + l) 0); [lia|]. rewrite (N.add_comm ((1023 + l) * 2 ^ 52) f), N.mod_add by discriminate. rewrite N.mod_small by auto. f_equal.
    replace (2 ^ 52 + f) with (n * 2 ^ (52 - l)). rewrite <- N.mul_assoc, <- N.pow_add_r. do 2 f_equal. lia.
    unfold f. rewrite N.mul_sub_distr_r, <- N.pow_add_r. replace (l + (52 - l)) with 52 by lia. assert (2 ^ 52 <= n * 2 ^ (52 - l)). { replace (2 ^ 52) with (2 ^ l * 2 ^ (52 - l)) by (rewrite <- N.pow_add_r; f_equal; lia). apply N.mul_le_mono_r. tauto. } lia. }
  split; [|split].
  - unfold f64_finite. rewrite EX. destruct (N.eqb_spec (1023 + l) 2047); [lia|reflexivity].
  - unfold f64_positive. rewrite N.testbit_eqb. rewrite (N.div_small _ (2 ^ 63)). reflexivity. change (2 ^ 52) with 4503599627370496 in *. change (2 ^ 63) with 9223372036854775808. lia.
  - rewrite V. unfold f64_round_int. cbn [fst snd]. assert (P := pow2_pos 1075). set (p := 2 ^ 1075) in *. clearbody p. replace (2 * (n * p) + p) with (p + n * (2 * p)) by lia. rewrite N.div_add by lia. rewrite N.div_small by lia. rewrite N.add_0_l. apply N.min_r. change U32_MAX with 4294967295. change (2 ^ 32) with 4294967296 in NB. lia.
Qed.
