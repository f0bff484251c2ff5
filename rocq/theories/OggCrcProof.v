From Verif Require Import BaseLemmas OggModel OggSpec.

Notation M32 := 4294967296.

Lemma shift_lxor : forall a b, (2 * N.lxor a b) mod 2 ^ 32 = N.lxor ((2 * a) mod 2 ^ 32) ((2 * b) mod 2 ^ 32).
Proof.
  intros. apply N.bits_inj; intro n. rewrite N.lxor_spec.
  destruct (N.lt_ge_cases n 32).
  - rewrite !N.mod_pow2_bits_low by auto. 
    replace (2 * N.lxor a b) with (N.shiftl (N.lxor a b) 1) by (rewrite N.shiftl_mul_pow2; lia).
    replace (2 * a) with (N.shiftl a 1) by (rewrite N.shiftl_mul_pow2; lia).
    replace (2 * b) with (N.shiftl b 1) by (rewrite N.shiftl_mul_pow2; lia).
    rewrite N.shiftl_lxor, N.lxor_spec. reflexivity.
  - rewrite !N.mod_pow2_bits_high by auto. reflexivity.
Qed.

Lemma lxor_cancel4 : forall a b p, N.lxor (N.lxor a p) (N.lxor b p) = N.lxor a b.
Proof.
  intros. rewrite (N.lxor_comm b p), N.lxor_assoc, <- (N.lxor_assoc p p b), N.lxor_nilpotent, N.lxor_0_l. reflexivity.
Qed.

Lemma crc_bit_lxor : forall a b, crc_bit (N.lxor a b) = N.lxor (crc_bit a) (crc_bit b).
Proof.
  intros. unfold crc_bit. rewrite N.lxor_spec, shift_lxor.
  destruct (N.testbit a 31), (N.testbit b 31); cbn [xorb].
  - now rewrite lxor_cancel4.
  - rewrite !N.lxor_assoc. f_equal. apply N.lxor_comm.
  - now rewrite N.lxor_assoc.
  - reflexivity.
Qed.

Lemma iter_lxor : forall n a b, N.iter n crc_bit (N.lxor a b) = N.lxor (N.iter n crc_bit a) (N.iter n crc_bit b).
Proof.
  intros n. induction n using N.peano_ind; intros; [reflexivity|].
  rewrite !N.iter_succ, IHn. apply crc_bit_lxor.
Qed.

Lemma bit31_low : forall c, c < 2 ^ 31 -> N.testbit c 31 = false.
Proof.
  intros. destruct (N.eq_dec c 0). subst; apply N.bits_0.
  apply N.bits_above_log2. apply N.log2_lt_pow2; lia.
Qed.

Lemma crc_bit_low : forall c, c < 2 ^ 31 -> crc_bit c = 2 * c.
Proof.
  intros. unfold crc_bit. rewrite bit31_low by auto.
  change (2 ^ 31) with 2147483648 in H. change (2 ^ 32) with M32. lia.
Qed.

Lemma iter_low : forall n c, c * 2 ^ n < 2 ^ 32 -> N.iter n crc_bit c = c * 2 ^ n.
Proof.
  intros n. induction n using N.peano_ind; intros.
  - cbn. change (2 ^ 0) with 1. lia.
  - rewrite N.pow_succ_r' in *. rewrite N.iter_succ_r.
    assert (2 ^ n <> 0) by (apply N.pow_nonzero; lia).
    assert (c < 2 ^ 31). { change (2 ^ 32) with (2 * 2 ^ 31) in H. nia. }
    rewrite crc_bit_low by auto. rewrite IHn; lia.
Qed.

Lemma lxor_bound : forall a b k, a < 2 ^ k -> b < 2 ^ k -> N.lxor a b < 2 ^ k.
Proof.
  intros. destruct (N.eq_dec (N.lxor a b) 0). rewrite e. pose proof (N.pow_nonzero 2 k). lia.
  apply N.log2_lt_pow2. lia.
  pose proof (N.log2_lxor a b).
  destruct (N.eq_dec a 0), (N.eq_dec b 0); subst.
  - rewrite N.lxor_0_l in n. lia.
  - rewrite N.lxor_0_l. apply N.log2_lt_pow2; lia.
  - rewrite N.lxor_0_r. apply N.log2_lt_pow2; lia.
  - apply N.log2_lt_pow2 in H; apply N.log2_lt_pow2 in H0; lia.
Qed.

Lemma crc_bit_bound : forall c, crc_bit c < 2 ^ 32.
Proof.
  intros. unfold crc_bit.
  assert ((2 * c) mod 2 ^ 32 < 2 ^ 32) by (apply N.mod_lt; discriminate).
  destruct (N.testbit c 31); auto. apply lxor_bound; auto. reflexivity.
Qed.
Lemma iter_bound : forall n c, c < 2 ^ 32 -> N.iter n crc_bit c < 2 ^ 32.
Proof. intros n. destruct n using N.peano_ind; intros; auto. rewrite N.iter_succ. apply crc_bit_bound. Qed.

Lemma crc_bit_zero : forall c, c < 2 ^ 32 -> crc_bit c = 0 -> c = 0.
Proof.
  intros. unfold crc_bit in H0. destruct (N.testbit c 31) eqn:E.
  - apply N.lxor_eq in H0. change (2 ^ 32) with M32 in *. lia.
  - assert (c < 2 ^ 31).
    { destruct (N.lt_ge_cases c (2 ^ 31)); auto. exfalso.
      assert (N.log2 c = 31). { apply N.log2_unique; [lia|]. split; auto. }
      rewrite <- H2 in E. rewrite N.bit_log2 in E. discriminate. 
      change (2 ^ 31) with 2147483648 in H1. lia. }
    change (2 ^ 32) with M32 in *. change (2 ^ 31) with 2147483648 in H1. lia.
Qed.
Lemma iter_zero : forall n c, c < 2 ^ 32 -> N.iter n crc_bit c = 0 -> c = 0.
Proof.
  intros n. induction n using N.peano_ind; intros; auto.
  rewrite N.iter_succ_r in H0. apply IHn in H0. now apply crc_bit_zero. apply crc_bit_bound.
Qed.
Lemma iter_inj : forall n a b, a < 2 ^ 32 -> b < 2 ^ 32 -> N.iter n crc_bit a = N.iter n crc_bit b -> a = b.
Proof.
  intros. apply N.lxor_eq. apply (iter_zero n). apply lxor_bound; auto.
  rewrite iter_lxor, H1. apply N.lxor_nilpotent.
Qed.

(** The lookup table. *)
Definition table_ok : bool :=
  (Nat.eqb (length CRC_LOOKUP_ARRAY) 256) &&
  forallb (fun i => match nth_error CRC_LOOKUP_ARRAY (N.to_nat i) with
                    | Some t => t =? N.iter 8 crc_bit (N.shiftl i 24) | None => false end)
          (map N.of_nat (seq 0 256)).
Lemma table_ok_true : table_ok = true. Proof. vm_compute. reflexivity. Qed.
Lemma table_spec : forall i, i < 256 ->
  nth_error CRC_LOOKUP_ARRAY (N.to_nat i) = Some (N.iter 8 crc_bit (N.shiftl i 24)).
Proof.
  intros. pose proof table_ok_true. unfold table_ok in H0. apply andb_true_iff in H0 as [_ H0].
  rewrite forallb_forall in H0. specialize (H0 i).
  assert (In i (map N.of_nat (seq 0 256))).
  { apply in_map_iff. exists (N.to_nat i). split. lia. apply in_seq. lia. }
  specialize (H0 H1). destruct nth_error; [|discriminate]. apply N.eqb_eq in H0. now subst.
Qed.

Lemma crc_byte_bound : forall c b, c < 2 ^ 32 -> b < 256 -> crc_byte c b < 2 ^ 32.
Proof.
  intros. unfold crc_byte. apply iter_bound. apply lxor_bound; auto.
  rewrite N.shiftl_mul_pow2. change (2 ^ 24) with 16777216. change (2 ^ 32) with M32. lia.
Qed.

Lemma split24 : forall c, c < 2 ^ 32 -> c = N.lxor (N.shiftl (N.shiftr c 24) 24) (c mod 2 ^ 24).
Proof.
  intros. rewrite N.shiftl_mul_pow2, N.shiftr_div_pow2, N.lxor_comm.
  assert (c mod 2 ^ 24 < 2 ^ 24) by (apply N.mod_lt; discriminate).
  rewrite N.lxor_lor.
  - rewrite lor_add by auto. pose proof (N.div_mod c (2 ^ 24)). lia.
  - apply N.bits_inj; intro n. rewrite N.land_spec, N.bits_0.
    destruct (N.lt_ge_cases n 24).
    + rewrite N.mul_pow2_bits_low by auto. apply andb_false_r.
    + rewrite N.mod_pow2_bits_high by auto. reflexivity.
Qed.

Lemma crc_step_spec : forall c b, c < 2 ^ 32 -> b < 256 -> crc_step c b = Some (crc_byte c b).
Proof.
  intros. unfold crc_step.
  assert (Hhi : N.shiftr c 24 < 2 ^ 8).
  { rewrite N.shiftr_div_pow2. change (2 ^ 24) with 16777216. change (2 ^ 32) with M32 in H. change (2 ^ 8) with 256. lia. }
  assert (Hx : N.lxor b (N.shiftr c 24) < 2 ^ 8) by (apply lxor_bound; auto).
  rewrite table_spec by exact Hx. f_equal.
  unfold crc_byte. rewrite (split24 c H) at 3.
  rewrite N.lxor_assoc, (N.lxor_comm (c mod _)), <- N.lxor_assoc, iter_lxor.
  rewrite <- N.shiftl_lxor, (N.lxor_comm (N.shiftr c 24) b), N.lxor_comm. f_equal.
  rewrite iter_low.
  - rewrite N.shiftl_mul_pow2. change (2 ^ 24) with 16777216. change (2 ^ 32) with M32. change (2 ^ 8) with 256. lia.
  - change (2 ^ 24) with 16777216. change (2 ^ 32) with M32. change (2 ^ 8) with 256. lia.
Qed.

Lemma crc_loop_spec : forall l c, bytes_ok l -> c < 2 ^ 32 ->
  crc_loop c l = Some (fold_left crc_byte l c) /\ fold_left crc_byte l c < 2 ^ 32.
Proof.
  induction l; intros; cbn [crc_loop fold_left]; auto.
  inversion H; subst. unfold byte_ok in H3. rewrite crc_step_spec by auto.
  apply IHl; auto. now apply crc_byte_bound.
Qed.

Lemma crc32_spec : forall l, bytes_ok l -> crc32 l = Some (crc_spec l) /\ crc_spec l < 2 ^ 32.
Proof. intros. apply crc_loop_spec; auto. reflexivity. Qed.

(** Burst errors *)
Lemma be_dec_cons : forall b l, be_dec (b :: l) = b * 256 ^ lenN l + be_dec l.
Proof.
  intros. unfold be_dec. cbn [rev].
  assert (forall u v, le_dec (u ++ v) = le_dec u + 256 ^ lenN u * le_dec v).
  { induction u; intros; cbn [app le_dec]. change (256 ^ lenN []) with 1. lia.
    rewrite IHu, lenN_cons. replace (1 + lenN u) with (N.succ (lenN u)) by lia. rewrite N.pow_succ_r'. nia. }
  rewrite H, lenN_rev. cbn [le_dec]. nia.
Qed.

Lemma pow256 : forall n, 256 ^ n = 2 ^ (8 * n).
Proof. intros. rewrite N.pow_mul_r. reflexivity. Qed.

Lemma fold_window : forall w c, bytes_ok w -> lenN w <= 4 -> c < 2 ^ 32 ->
  fold_left crc_byte w c = N.iter (8 * lenN w) crc_bit (N.lxor c (be_dec w * 2 ^ (32 - 8 * lenN w))).
Proof.
  induction w; intros c Hok Hl Hc.
  - cbn. now rewrite N.lxor_0_r.
  - inversion Hok; subst. unfold byte_ok in H1. rewrite lenN_cons in Hl. cbn [fold_left].
    rewrite IHw by (auto; try lia; now apply crc_byte_bound).
    pose proof (be_dec_bound w H2) as Hb. rewrite pow256 in Hb.
    set (n := lenN w) in *. rewrite lenN_cons. fold n.
    replace (8 * (1 + n)) with (8 * n + 8) by lia.
    replace (32 - (8 * n + 8)) with (24 - 8 * n) by lia.
    assert (Hp : 2 ^ (32 - 8 * n) = 256 * 2 ^ (24 - 8 * n)).
    { replace (32 - 8 * n) with (8 + (24 - 8 * n)) by lia. rewrite N.pow_add_r. reflexivity. }
    assert (Hq : 2 ^ 24 = 2 ^ (8 * n) * 2 ^ (24 - 8 * n)).
    { rewrite <- N.pow_add_r. f_equal. lia. }
    assert (Hlow : be_dec w * 2 ^ (24 - 8 * n) < 2 ^ 24).
    { rewrite Hq. apply N.mul_lt_mono_pos_r; auto. pose proof (N.pow_nonzero 2 (24 - 8 * n)). lia. }
    unfold crc_byte. rewrite Hp.
    replace (be_dec w * (256 * 2 ^ (24 - 8 * n))) with (N.iter 8 crc_bit (be_dec w * 2 ^ (24 - 8 * n))).
    2:{ rewrite iter_low. change (2 ^ 8) with 256. lia.
        change (2 ^ 32) with (2 ^ 24 * 2 ^ 8). apply N.mul_lt_mono_pos_r; auto. reflexivity. }
    rewrite <- iter_lxor. rewrite <- N.iter_add. f_equal. rewrite N.lxor_assoc. f_equal.
    rewrite be_dec_cons. fold n. rewrite N.shiftl_mul_pow2.
    rewrite N.mul_add_distr_r, pow256, <- N.mul_assoc, <- Hq.
    rewrite N.lxor_comm, N.lxor_lor; [rewrite lor_add by auto; lia|].
    apply N.bits_inj; intro k. rewrite N.land_spec, N.bits_0.
    destruct (N.lt_ge_cases k 24).
    + rewrite (N.mul_pow2_bits_low a 24 k) by auto. apply andb_false_r.
    + rewrite (N.bits_above_log2 _ k); auto. destruct (N.eq_dec (be_dec w * 2 ^ (24 - 8 * n)) 0) as [E|E].
      * rewrite E. cbn. lia.
      * apply N.log2_lt_pow2 in Hlow; lia.
Qed.

Lemma fold_bound : forall l c, bytes_ok l -> c < 2 ^ 32 -> fold_left crc_byte l c < 2 ^ 32.
Proof. intros. now apply crc_loop_spec. Qed.

Lemma fold_inj : forall l c d, bytes_ok l -> c < 2 ^ 32 -> d < 2 ^ 32 ->
  fold_left crc_byte l c = fold_left crc_byte l d -> c = d.
Proof.
  induction l; intros; auto. inversion H; subst. unfold byte_ok in *. cbn [fold_left] in H2.
  apply IHl in H2; auto using crc_byte_bound.
  unfold crc_byte in H2.
  assert (N.shiftl a 24 < 2 ^ 32). { rewrite N.shiftl_mul_pow2. change (2 ^ 24) with 16777216. change (2 ^ 32) with M32. lia. }
  apply iter_inj in H2; try (apply lxor_bound; auto).
  apply (f_equal (fun x => N.lxor x (N.shiftl a 24))) in H2.
  rewrite !N.lxor_assoc, !N.lxor_nilpotent, !N.lxor_0_r in H2. exact H2.
Qed.

Lemma be_dec_inj : forall a b, bytes_ok a -> bytes_ok b -> length a = length b -> be_dec a = be_dec b -> a = b.
Proof.
  intros. rewrite <- (be_enc_dec a H), <- (be_enc_dec b H0). now rewrite H1, H2.
Qed.

Lemma crc_burst : forall pre w1 w2 post,
  bytes_ok (pre ++ w1 ++ post) -> bytes_ok (pre ++ w2 ++ post) ->
  length w1 = length w2 -> lenN w1 <= 4 -> w1 <> w2 ->
  crc32 (pre ++ w1 ++ post) <> crc32 (pre ++ w2 ++ post).
Proof.
  intros pre w1 w2 post H1 H2 Hl H4 Hne Heq.
  rewrite (proj1 (crc32_spec _ H1)), (proj1 (crc32_spec _ H2)) in Heq. injection Heq as Heq.
  unfold crc_spec in Heq. rewrite !fold_left_app in Heq.
  apply Forall_app in H1 as [Hp H1]. apply Forall_app in H1 as [Hw1 Hpo].
  apply Forall_app in H2 as [_ H2]. apply Forall_app in H2 as [Hw2 _].
  assert (Hc : fold_left crc_byte pre 0 < 2 ^ 32) by (apply fold_bound; auto; reflexivity).
  set (c := fold_left crc_byte pre 0) in *.
  apply fold_inj in Heq; auto using fold_bound.
  assert (El : lenN w1 = lenN w2) by (unfold lenN; lia).
  rewrite !fold_window in Heq by (auto; lia). rewrite <- El in Heq.
  assert (B : forall w, bytes_ok w -> lenN w = lenN w1 -> be_dec w * 2 ^ (32 - 8 * lenN w1) < 2 ^ 32).
  { intros. pose proof (be_dec_bound w H). rewrite pow256, H0 in H1.
    replace (2 ^ 32) with (2 ^ (8 * lenN w1) * 2 ^ (32 - 8 * lenN w1)) by (rewrite <- N.pow_add_r; f_equal; lia).
    apply N.mul_lt_mono_pos_r; auto. pose proof (N.pow_nonzero 2 (32 - 8 * lenN w1)). lia. }
  apply iter_inj in Heq; try (apply lxor_bound; auto).
  apply (f_equal (N.lxor c)) in Heq. rewrite <- !N.lxor_assoc, N.lxor_nilpotent, !N.lxor_0_l in Heq.
  apply N.mul_cancel_r in Heq. 2: apply N.pow_nonzero; lia.
  apply be_dec_inj in Heq; auto.
Qed.
