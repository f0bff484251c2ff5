(** Errors of the floating point arithmetic of the bit rates. *)
From Verif Require Import BaseLemmas MathModel MathThm IffModel AiffModel AiffProof3.

Definition E53 : N := 2 ^ 53.
Lemma e53_pos : 0 < E53. Proof. reflexivity. Qed.
(** [x] and [p / q] differ by a factor of at most 1 + j / 2^53. *)
Definition close (x : rat) (p q j : N) : Prop := fst x * q * E53 <= p * snd x * (E53 + j) /\ p * snd x * E53 <= fst x * q * (E53 + j).
Lemma chain : forall E z1 z2 x1 x2 p q i j, 0 < E -> 0 < x2 -> i * j <= E -> z1 * x2 * E <= x1 * z2 * (E + j) -> x1 * q * E <= p * x2 * (E + i) -> z1 * q * E <= p * z2 * (E + (i + j + 1)).
Proof.
  intros E z1 z2 x1 x2 p q i j E0 X0 IJ A B. apply (N.mul_le_mono_pos_l _ _ (x2 * E)); [now apply N.mul_pos_pos|].
  apply N.le_trans with (x1 * z2 * (E + j) * (q * E)).
  - replace (x2 * E * (z1 * q * E)) with (z1 * x2 * E * (q * E)) by lia. now apply N.mul_le_mono_r.
  - replace (x1 * z2 * (E + j) * (q * E)) with (x1 * q * E * (z2 * (E + j))) by lia. apply N.le_trans with (p * x2 * (E + i) * (z2 * (E + j))); [now apply N.mul_le_mono_r|].
    replace (p * x2 * (E + i) * (z2 * (E + j))) with (p * x2 * z2 * ((E + i) * (E + j))) by lia. replace (x2 * E * (p * z2 * (E + (i + j + 1)))) with (p * x2 * z2 * (E * (E + (i + j + 1)))) by lia.
    apply N.mul_le_mono_l. replace ((E + i) * (E + j)) with (E * (E + (i + j)) + i * j) by lia. lia.
Qed.
Lemma close_trans : forall z x p q i j, 0 < fst x -> 0 < snd x -> i * j <= E53 -> close z (fst x) (snd x) j -> close x p q i -> close z p q (i + j + 1).
Proof.
  intros z x p q i j X1 X2 IJ [A1 A2] [B1 B2]. split.
  - eapply chain; eauto using e53_pos.
  - replace (p * snd z * E53) with (p * snd z * E53) by lia. replace (fst z * q * (E53 + (i + j + 1))) with (fst z * q * (E53 + (i + j + 1))) by lia.
    (* p/q <= x (1+i/E) <= z (1+j/E) (1+i/E) *)
    replace (i + j + 1) with (j + i + 1) by lia. pose proof (chain E53 p q (fst x) (snd x) (fst z) (snd z) j i e53_pos X2 ltac:(lia)) as C.
    replace (p * snd z * E53) with (p * snd z * E53) by lia. apply C; lia.
Qed.
(** Rounding *)
Lemma round_close : forall n d, 0 < n -> 0 < d -> 2 ^ 53 * d <= n * SCALE -> snd (f64_round (n, d)) = SCALE /\ close (f64_round (n, d)) n d 2.
Proof.
  intros n d N0 D0 B. unfold f64_round. destruct (N.eqb_spec n 0); [lia|]. cbn [snd]. split; [reflexivity|].
  set (lg := N.log2 (n * SCALE / d)). set (u := 2 ^ (lg - 52)). assert (U0 : 0 < u) by apply pow2_pos.
  assert (Q0 : 2 ^ 53 <= n * SCALE / d) by (apply N.div_le_lower_bound; lia). assert (Q1 : 0 < n * SCALE / d) by (apply N.lt_le_trans with (2 ^ 53); auto; reflexivity).
  assert (LG : 53 <= lg) by (unfold lg; apply N.log2_le_pow2; auto).
  assert (UB : u * 2 ^ 52 <= n * SCALE / d). { unfold u. rewrite <- N.pow_add_r. replace (lg - 52 + 52) with lg by lia. unfold lg. now apply N.log2_spec. }
  assert (UB2 : 2 ^ 52 * (d * u) <= n * SCALE). { apply N.le_trans with (d * (n * SCALE / d)). replace (2 ^ 52 * (d * u)) with (d * (u * 2 ^ 52)) by lia. now apply N.mul_le_mono_l. apply N.mul_div_le. lia. }
  assert (DU : 0 < d * u) by (now apply N.mul_pos_pos). destruct (rne_near (n * SCALE) (d * u) DU) as [L H]. set (R := rne (n * SCALE) (d * u)) in *. clearbody R lg.
  assert (EM : R * u * d = R * (d * u)) by lia. unfold close. cbn [fst snd]. rewrite EM. clear EM Q0 Q1 LG UB. assert (SP := scale_pos). set (w := R * (d * u)) in *. set (y := n * SCALE) in *. clearbody w y. set (du := d * u) in *. clearbody du.
  change E53 with (2 * 2 ^ 52). assert (P52 : 2 ^ 52 = 4503599627370496) by reflexivity. rewrite P52 in *. lia.
Qed.
Lemma close_div : forall x p q a j, close x p q j -> close (a * snd x, fst x) (a * q) p j.
Proof.
  intros x p q a j [A B]. split; cbn [fst snd].
  - replace (a * snd x * p * E53) with (a * (p * snd x * E53)) by lia. replace (a * q * fst x * (E53 + j)) with (a * (fst x * q * (E53 + j))) by lia. now apply N.mul_le_mono_l.
  - replace (a * q * fst x * E53) with (a * (fst x * q * E53)) by lia. replace (a * snd x * p * (E53 + j)) with (a * (p * snd x * (E53 + j))) by lia. now apply N.mul_le_mono_l.
Qed.
(** Adding a half *)
Lemma close_half : forall x p q j, close x p q j -> close (fst x * 2 + snd x, snd x * 2) (p * 2 + q) (q * 2) j.
Proof.
  intros x p q j [A B]. split; cbn [fst snd].
  - replace ((fst x * 2 + snd x) * (q * 2) * E53) with (4 * (fst x * q * E53) + 2 * (snd x * q * E53)) by lia.
    replace ((p * 2 + q) * (snd x * 2) * (E53 + j)) with (4 * (p * snd x * (E53 + j)) + 2 * (snd x * q * E53) + 2 * (snd x * q * j)) by lia. lia.
  - replace ((p * 2 + q) * (snd x * 2) * E53) with (4 * (p * snd x * E53) + 2 * (snd x * q * E53)) by lia.
    replace ((fst x * 2 + snd x) * (q * 2) * (E53 + j)) with (4 * (fst x * q * (E53 + j)) + 2 * (snd x * q * E53) + 2 * (snd x * q * j)) by lia. lia.
Qed.
Lemma close_pos : forall x p q j, 0 < p -> 0 < snd x -> close x p q j -> 0 < fst x.
Proof.
  intros x p q j P S [_ B]. destruct (N.eq_dec (fst x) 0) as [Z|]; [|lia]. rewrite Z in B. assert (0 < p * snd x * E53) by (repeat apply N.mul_pos_pos; auto using e53_pos). lia.
Qed.
(** The value is not tiny. *)
Lemma close_big : forall x p q j, 0 < p -> 0 < q -> q < 2 ^ 200 -> j < E53 -> close x p q j -> 2 ^ 53 * snd x <= fst x * SCALE.
Proof.
  intros x p q j P Q0 Q J [_ B]. apply (N.mul_le_mono_pos_l _ _ E53 e53_pos). assert (X : snd x * E53 <= fst x * (2 ^ 200 * (2 * E53))).
  { apply N.le_trans with (p * snd x * E53). { rewrite <- (N.mul_1_l (snd x)) at 1. apply N.mul_le_mono_r, N.mul_le_mono_r. lia. }
    eapply N.le_trans; [exact B|]. rewrite <- N.mul_assoc. apply N.mul_le_mono_l. apply N.mul_le_mono; lia. }
  apply N.le_trans with (2 ^ 53 * (fst x * (2 ^ 200 * (2 * E53)))).
  - replace (E53 * (2 ^ 53 * snd x)) with (2 ^ 53 * (snd x * E53)) by lia. now apply N.mul_le_mono_l.
  - replace (2 ^ 53 * (fst x * (2 ^ 200 * (2 * E53)))) with (fst x * (2 ^ 53 * (2 ^ 200 * (2 * E53)))) by lia. replace (E53 * (fst x * SCALE)) with (fst x * (E53 * SCALE)) by lia. apply N.mul_le_mono_l.
    apply N.leb_le. vm_compute. reflexivity.
Qed.
(** The length in milliseconds: [1000 * samples / rate] *)
Definition f64_length (samples rate : N) : rat := r_div (r_mul (of_int samples) (1000, 1)) (of_int rate).
Lemma length_close : forall samples rate, 0 < samples -> samples < 2 ^ 43 -> 0 < rate -> rate < 2 ^ 32 -> snd (f64_length samples rate) = SCALE /\ close (f64_length samples rate) (samples * 1000) rate 2.
Proof.
  intros s r S0 SB R0 RB. unfold f64_length. rewrite !of_int_exact; auto; try (eapply N.lt_trans; [eassumption|reflexivity]). assert (SP := scale_pos). unfold r_mul. cbn [fst snd]. rewrite N.mul_1_r.
  replace (s * SCALE * 1000) with (s * 1000 * SCALE) by lia. rewrite round_int; auto; try lia.
  unfold r_div. cbn [fst snd]. destruct (round_close (s * 1000 * SCALE * SCALE) (SCALE * (r * SCALE))) as [A B].
  - repeat apply N.mul_pos_pos; auto; lia.
  - repeat apply N.mul_pos_pos; auto.
  - replace (2 ^ 53 * (SCALE * (r * SCALE))) with (2 ^ 53 * r * (SCALE * SCALE)) by lia. replace (s * 1000 * SCALE * SCALE * SCALE) with (s * 1000 * SCALE * (SCALE * SCALE)) by lia. apply N.mul_le_mono_r.
    apply N.le_trans with (1 * SCALE); [|apply N.mul_le_mono_r; lia]. apply N.le_trans with (2 ^ 53 * 2 ^ 32); [apply N.mul_le_mono_l; lia|]. apply N.leb_le. vm_compute. reflexivity.
  - split; [exact A|]. destruct B as [B1 B2]. unfold close. split.
    + apply (N.mul_le_mono_pos_l _ _ (SCALE * SCALE)). { now apply N.mul_pos_pos. } set (x := f64_round _) in *. clearbody x. replace (SCALE * SCALE * (fst x * r * E53)) with (fst x * (SCALE * (r * SCALE)) * E53) by lia.
      replace (SCALE * SCALE * (s * 1000 * snd x * (E53 + 2))) with (s * 1000 * SCALE * SCALE * snd x * (E53 + 2)) by lia. exact B1.
    + apply (N.mul_le_mono_pos_l _ _ (SCALE * SCALE)). { now apply N.mul_pos_pos. } set (x := f64_round _) in *. clearbody x. replace (SCALE * SCALE * (fst x * r * (E53 + 2))) with (fst x * (SCALE * (r * SCALE)) * (E53 + 2)) by lia.
      replace (SCALE * SCALE * (s * 1000 * snd x * E53)) with (s * 1000 * SCALE * SCALE * snd x * E53) by lia. exact B2.
Qed.
Definition f64_kbps (bytes_ : N) (length : rat) : N := to_int U32_MAX (r_add (r_div (r_mul (of_int bytes_) (8, 1)) length) (1, 2)).
(** The bit rate [b] is the nearest integer to [p / q], or the other neighbour when they are nearly at the same distance. *)
Definition nearly_nearest (b p q : N) : Prop := 2 ^ 16 * (2 * b * q) <= 2 ^ 16 * (2 * p + q) + q /\ 2 ^ 16 * (2 * p) <= 2 ^ 16 * ((2 * b + 1) * q) + q.
Lemma kbps_near : forall size samples rate, 0 < size -> size < 2 ^ 50 -> 0 < samples -> samples < 2 ^ 43 -> 0 < rate -> rate < 2 ^ 32 -> size * 8 * rate < U32_MAX * (samples * 1000) ->
  nearly_nearest (f64_kbps size (f64_length samples rate)) (size * 8 * rate) (samples * 1000).
Proof.
  intros n s r N0 NB S0 SB R0 RB SAT. destruct (length_close s r S0 SB R0 RB) as [LS LC]. set (len := f64_length s r) in *. clearbody len. assert (SP := scale_pos).
  unfold f64_kbps. rewrite of_int_exact; auto; [|eapply N.lt_trans; [eassumption|reflexivity]]. unfold r_mul. cbn [fst snd]. rewrite N.mul_1_r.
  replace (n * SCALE * 8) with (n * 8 * SCALE) by lia. rewrite round_int; auto; try lia.
  assert (LP : 0 < fst len) by (eapply close_pos; [| |exact LC]; lia). assert (Q0 : 0 < s * 1000) by lia. assert (QB : s * 1000 < 2 ^ 200) by (eapply N.lt_trans with (2 ^ 43 * 1000); [lia|reflexivity]).
  unfold r_div. cbn [fst snd]. set (d := (n * 8 * SCALE * snd len, SCALE * fst len)).
  assert (DC : close d (n * 8 * r) (s * 1000) 2). { pose proof (close_div len (s * 1000) r (n * 8) 2 LC) as [C1 C2]. unfold d. split; cbn [fst snd] in *.
    - replace (n * 8 * SCALE * snd len * (s * 1000) * E53) with (SCALE * (n * 8 * snd len * (s * 1000) * E53)) by lia. replace (n * 8 * r * (SCALE * fst len) * (E53 + 2)) with (SCALE * (n * 8 * r * fst len * (E53 + 2))) by lia. now apply N.mul_le_mono_l.
    - replace (n * 8 * SCALE * snd len * (s * 1000) * (E53 + 2)) with (SCALE * (n * 8 * snd len * (s * 1000) * (E53 + 2))) by lia. replace (n * 8 * r * (SCALE * fst len) * E53) with (SCALE * (n * 8 * r * fst len * E53)) by lia. now apply N.mul_le_mono_l. }
  assert (D1 : 0 < fst d) by (unfold d; cbn [fst]; rewrite LS; repeat apply N.mul_pos_pos; lia). assert (D2 : 0 < snd d) by (unfold d; cbn [snd]; now apply N.mul_pos_pos).
  assert (P0 : 0 < n * 8 * r) by (repeat apply N.mul_pos_pos; lia). assert (E5 : 5 < E53) by reflexivity.
  pose proof (close_big d _ _ 2 P0 Q0 QB eq_refl DC) as DB. destruct (round_close (fst d) (snd d) D1 D2 DB) as [XS XC]. rewrite <- surjective_pairing in XS, XC. set (x := f64_round d) in *. clearbody x.
  assert (XP : close x (n * 8 * r) (s * 1000) 5). { apply (close_trans x d _ _ 2 2); auto. vm_compute. discriminate. } clear XC DC DB. assert (X0 : 0 < fst x) by (eapply close_pos; [| |exact XP]; lia).
  unfold r_add. cbn [fst snd]. replace (fst x * 2 + 1 * snd x, snd x * 2) with (fst x * 2 + snd x, snd x * 2) by (f_equal; lia). pose proof (close_half _ _ _ _ XP) as HC. set (h := (fst x * 2 + snd x, snd x * 2)) in *.
  assert (H1 : 0 < fst h) by (unfold h; cbn [fst]; lia). assert (H2 : 0 < snd h) by (unfold h; cbn [snd]; lia).
  assert (HB : 2 ^ 53 * snd h <= fst h * SCALE). { apply (close_big h (n * 8 * r * 2 + s * 1000) (s * 1000 * 2) 5); auto; lia. }
  destruct (round_close (fst h) (snd h) H1 H2 HB) as [YS YC]. rewrite <- surjective_pairing in YS, YC. set (y := f64_round h) in *. clearbody y.
  assert (YP : close y (n * 8 * r * 2 + s * 1000) (s * 1000 * 2) 8). { apply (close_trans y h _ _ 5 2); auto. vm_compute. discriminate. } clear YC HC HB XP LC. clear h H1 H2 d D1 D2 x XS X0.
  set (p := n * 8 * r) in *. set (q := s * 1000) in *. unfold to_int. rewrite YS in *. destruct YP as [Y1 Y2]. set (f := fst y) in *. clearbody f p q. clear LP LS.
  assert (F := N.div_mod f SCALE ltac:(lia)). assert (M := N.mod_lt f SCALE ltac:(lia)). set (b := f / SCALE) in *. set (m := f mod SCALE) in *. clearbody b m.
  assert (A1 : b * (q * 2) * E53 <= (p * 2 + q) * (E53 + 8)).
  { apply (N.mul_le_mono_pos_l _ _ SCALE SP). apply N.le_trans with (f * (q * 2) * E53). - replace (SCALE * (b * (q * 2) * E53)) with (SCALE * b * (q * 2) * E53) by lia. apply N.mul_le_mono_r, N.mul_le_mono_r. lia. - lia. }
  assert (A2 : (p * 2 + q) * E53 <= (b + 1) * (q * 2) * (E53 + 8)).
  { apply (N.mul_le_mono_pos_l _ _ SCALE SP). apply N.le_trans with (f * (q * 2) * (E53 + 8)). - lia. - replace (SCALE * ((b + 1) * (q * 2) * (E53 + 8))) with (SCALE * (b + 1) * (q * 2) * (E53 + 8)) by lia. apply N.mul_le_mono_r, N.mul_le_mono_r. lia. }
  clear F M Y1 Y2. clear m f. unfold nearly_nearest. change U32_MAX with 4294967295 in *. change E53 with 9007199254740992 in *. change (2 ^ 16) with 65536.
  assert (BM : b <= 4294967295 + 1). { destruct (N.le_gt_cases b 4294967296) as [|G]; [lia|]. assert (4294967297 * q <= b * q) by (apply N.mul_le_mono_r; lia). set (bq := b * q) in *. replace (b * (q * 2)) with (2 * bq) in A1 by lia. lia. }
  set (bq := b * q) in *. replace (b * (q * 2)) with (2 * bq) in A1 by (unfold bq; lia). replace ((b + 1) * (q * 2)) with (2 * bq + 2 * q) in A2 by (unfold bq; lia).
  assert (BQ : bq <= 4294967296 * q) by (unfold bq; apply N.mul_le_mono_r; lia).
  destruct (N.le_gt_cases b 4294967295) as [G|G].
  - rewrite N.min_r by lia. replace (2 * b * q) with (2 * bq) by (unfold bq; lia). replace ((2 * b + 1) * q) with (2 * bq + q) by (unfold bq; lia). lia.
  - rewrite N.min_l by lia. assert (bq = 4294967296 * q) by (unfold bq; f_equal; lia). lia.
Qed.
(** Rounding keeps order with respect to halves. *)
Lemma half_mono : forall n d a, 0 < n -> 0 < d -> n < 2 ^ 51 * d -> a * d <= 2 * n -> a * SCALE <= 2 * fst (f64_round (n, d)).
Proof.
  intros n d a N0 D0 B A. unfold f64_round. destruct (N.eqb_spec n 0); [lia|]. cbn [fst]. set (lg := N.log2 (n * SCALE / d)).
  assert (LB : lg <= 371). { unfold lg. assert (H : n * SCALE / d <= 2 ^ 51 * SCALE). { apply N.div_le_upper_bound; [lia|]. replace (d * (2 ^ 51 * SCALE)) with (2 ^ 51 * d * SCALE) by lia. apply N.mul_le_mono_r. lia. } apply N.log2_le_mono in H. 
    unfold SCALE in H at 2. rewrite <- N.pow_add_r, N.log2_pow2 in H by lia. exact H. }
  set (u := 2 ^ (lg - 52)). assert (U0 : 0 < u) by apply pow2_pos.
  assert (SU : SCALE = 2 * (2 ^ (319 - (lg - 52)) * u)). { unfold SCALE, u. change 320 with (1 + 319). rewrite N.pow_add_r. change (2 ^ 1) with 2. f_equal. apply pow_split. lia. }
  set (v := 2 ^ (319 - (lg - 52))) in *. clearbody v u. assert (M : a * v <= rne (n * SCALE) (d * u)).
  { apply rne_mono; [now apply N.mul_pos_pos|]. rewrite SU. replace (a * v * (d * u)) with (a * d * (v * u)) by lia. replace (n * (2 * (v * u))) with (2 * n * (v * u)) by lia. now apply N.mul_le_mono_r. }
  rewrite SU at 1. replace (a * (2 * (v * u))) with (2 * (a * v * u)) by lia. apply N.mul_le_mono_l. now apply N.mul_le_mono_r.
Qed.
(** The duration, rounded to the nearest millisecond *)
Definition f64_nearest_ms (length : rat) : N := to_int U64_MAX (r_add length (1, 2)).
Lemma nearest_length : forall samples rate, 0 < samples -> samples < 2 ^ 38 -> 0 < rate -> rate < 2 ^ 32 -> f64_nearest_ms (f64_length samples rate) = (2 * (samples * 1000) + rate) / (2 * rate).
Proof.
  intros s r S0 SB R0 RB. assert (SB' : s < 2 ^ 43) by (eapply N.lt_trans; [exact SB|reflexivity]). destruct (length_close s r S0 SB' R0 RB) as [LS LC]. assert (SP := scale_pos).
  set (k := (2 * (s * 1000) + r) / (2 * r)). assert (KM := N.div_mod (2 * (s * 1000) + r) (2 * r) ltac:(lia)). fold k in KM. assert (KL := N.mod_lt (2 * (s * 1000) + r) (2 * r) ltac:(lia)). set (m := (2 * (s * 1000) + r) mod (2 * r)) in *. clearbody k m.
  assert (LOW : 2 * k * SCALE <= 2 * fst (f64_length s r) + SCALE).
  { destruct (N.eq_dec k 0) as [->|]; [lia|]. unfold f64_length. rewrite !of_int_exact; auto; try (eapply N.lt_trans; [eassumption|reflexivity]). unfold r_mul. cbn [fst snd]. rewrite N.mul_1_r.
    replace (s * SCALE * 1000) with (s * 1000 * SCALE) by lia. rewrite round_int; auto; try lia. unfold r_div. cbn [fst snd].
    pose proof (half_mono (s * 1000 * SCALE * SCALE) (SCALE * (r * SCALE)) (2 * k - 1)) as H. assert ((2 * k - 1) * SCALE <= 2 * fst (f64_round (s * 1000 * SCALE * SCALE, SCALE * (r * SCALE)))); [|set (f := fst _) in *; clearbody f; rewrite N.mul_sub_distr_r, N.mul_1_l in H0; lia].
    apply H; clear H.
    - repeat apply N.mul_pos_pos; lia.
    - repeat apply N.mul_pos_pos; lia.
    - replace (s * 1000 * SCALE * SCALE) with (s * 1000 * (SCALE * SCALE)) by lia. replace (2 ^ 51 * (SCALE * (r * SCALE))) with (2 ^ 51 * r * (SCALE * SCALE)) by lia. apply N.mul_lt_mono_pos_r; [now apply N.mul_pos_pos|]. lia.
    - replace ((2 * k - 1) * (SCALE * (r * SCALE))) with ((2 * k - 1) * r * (SCALE * SCALE)) by lia. replace (2 * (s * 1000 * SCALE * SCALE)) with (2 * (s * 1000) * (SCALE * SCALE)) by lia. apply N.mul_le_mono_r.
      rewrite N.mul_sub_distr_r, N.mul_1_l. lia. }
  set (len := f64_length s r) in *. clearbody len. assert (LP : 0 < fst len) by (eapply close_pos; [| |exact LC]; lia).
  unfold f64_nearest_ms, r_add. cbn [fst snd]. rewrite N.mul_1_l. pose proof (close_half _ _ _ _ LC) as HC. set (h := (fst len * 2 + snd len, snd len * 2)) in *.
  assert (H1 : 0 < fst h) by (unfold h; cbn [fst]; lia). assert (H2 : 0 < snd h) by (unfold h; cbn [snd]; lia).
  assert (HB : 2 ^ 53 * snd h <= fst h * SCALE). { apply (close_big h (s * 1000 * 2 + r) (r * 2) 2); auto; try lia. }
  destruct (round_close (fst h) (snd h) H1 H2 HB) as [YS YC]. rewrite <- surjective_pairing in YS, YC.
  assert (UPH : fst h < 2 ^ 51 * snd h).
  { destruct HC as [HC _]. apply (N.mul_lt_mono_pos_l (r * 2 * E53)); [apply N.mul_pos_pos; [lia|reflexivity]|]. apply N.le_lt_trans with ((s * 1000 * 2 + r) * snd h * (E53 + 2)); [lia|].
    replace (r * 2 * E53 * (2 ^ 51 * snd h)) with (r * (2 * 2 ^ 51 * E53) * snd h) by lia. replace ((s * 1000 * 2 + r) * snd h * (E53 + 2)) with ((s * 1000 * 2 + r) * (E53 + 2) * snd h) by lia. apply N.mul_lt_mono_pos_r; [exact H2|].
    apply N.lt_le_trans with (1 * (2 * 2 ^ 51 * E53)); [|apply N.mul_le_mono_r; lia]. apply N.lt_le_trans with (2 ^ 50 * (E53 + 2)); [|vm_compute; discriminate]. apply N.mul_lt_mono_pos_r; [reflexivity|]. lia. }
  assert (YL : 2 * k * SCALE <= 2 * fst (f64_round h)).
  { rewrite (surjective_pairing h) at 1. apply half_mono; auto. unfold h. cbn [fst snd]. rewrite LS. replace (2 * k * (SCALE * 2)) with (2 * (2 * k * SCALE)) by lia. lia. }
  assert (YP : close (f64_round h) (s * 1000 * 2 + r) (r * 2) 5). { apply (close_trans _ h _ _ 2 2); auto. vm_compute. discriminate. }
  set (y := f64_round h) in *. clearbody y. destruct YP as [YU _]. rewrite YS in *. unfold to_int. rewrite YS. set (f := fst y) in *. clearbody f. clear YC HC HB h H1 H2 UPH LOW LC LP LS.
  assert (FU : f < (k + 1) * SCALE).
  { apply (N.mul_lt_mono_pos_l (r * 2 * E53)); [apply N.mul_pos_pos; [lia|reflexivity]|]. apply N.le_lt_trans with ((s * 1000 * 2 + r) * SCALE * (E53 + 5)); [lia|].
    replace (r * 2 * E53 * ((k + 1) * SCALE)) with (r * 2 * (k + 1) * E53 * SCALE) by lia. replace ((s * 1000 * 2 + r) * SCALE * (E53 + 5)) with ((s * 1000 * 2 + r) * (E53 + 5) * SCALE) by lia. apply N.mul_lt_mono_pos_r; [exact SP|].
    assert (X : s * 1000 * 2 + r + 1 <= r * 2 * (k + 1)) by (replace (r * 2 * (k + 1)) with (2 * r * k + 2 * r) by lia; lia). apply N.lt_le_trans with ((s * 1000 * 2 + r + 1) * E53); [|now apply N.mul_le_mono_r]. change E53 with 9007199254740992. lia. }
  assert (f / SCALE = k) as ->. { symmetry. apply (N.div_unique f SCALE k (f - k * SCALE)); lia. }
  apply N.min_r. change U64_MAX with 18446744073709551615. assert (k <= 2 * r * k) by (rewrite <- (N.mul_1_l k) at 1; apply N.mul_le_mono_r; lia). lia.
Qed.
