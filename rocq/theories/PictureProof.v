From Verif Require Import BaseLemmas StrLemmas TimestampProof TextSpec TextProof PictureModel.

(** Base64 *)
Lemma b64_val_char : forall v, v < 64 -> b64_val (b64_char v) = Some v /\ b64_char v <> 61.
Proof.
  assert (A : allN 64 0 (fun v => match b64_val (b64_char v) with Some w => (w =? v) && negb (b64_char v =? 61) | None => false end) = true) by (vm_compute; reflexivity).
  intros v H. pose proof (allN_spec _ _ _ A v) as B. cbn beta in B. specialize (B ltac:(lia)).
  destruct (b64_val (b64_char v)) as [w|]; [|discriminate]. apply andb_prop in B as [B1 B2]. split. f_equal; lia. lia.
Qed.

Lemma b64_three : forall k l, (length l <= k)%nat -> bytes_ok l -> b64_decode (b64_encode l) = Some l.
Proof.
  induction k as [|k IH]; intros l L B.
  { destruct l; [reflexivity|cbn in L; lia]. }
  destruct l as [|a [|b [|c l]]].
  - reflexivity.
  - apply Forall_cons_iff in B as [A _]. unfold byte_ok in A. cbn [b64_encode b64_decode]. cbv zeta.
    assert (V0 : a * 65536 / 262144 < 64) by (apply N.div_lt_upper_bound; lia).
    assert (V1 : a * 65536 / 4096 mod 64 < 64) by (apply N.mod_lt; lia).
    rewrite (proj1 (b64_val_char _ V0)), (proj1 (b64_val_char _ V1)). change (61 =? 61) with true. cbn iota.
    replace (a * 65536 / 4096) with (a * 16) by (rewrite <- (N.div_mul (a * 16) 4096) by lia; f_equal; lia).
    replace (a * 65536 / 262144) with (a / 4) by (rewrite <- (N.div_mul_cancel_r a 4 65536) by lia; f_equal; lia).
    replace (a * 16 mod 64) with ((a mod 4) * 16) by (change 64 with (4 * 16); rewrite N.mul_mod_distr_r by lia; reflexivity).
    rewrite N.mod_mul by lia. change (0 =? 0) with true. cbn iota. rewrite N.div_mul by lia. do 2 f_equal. pose proof (N.div_mod a 4 ltac:(lia)). lia.
  - apply Forall_cons_iff in B as [A B]. apply Forall_cons_iff in B as [B _]. unfold byte_ok in *. cbn [b64_encode b64_decode]. cbv zeta.
    remember (a * 65536 + b * 256) as n.
    assert (V0 : n / 262144 < 64) by (apply N.div_lt_upper_bound; lia).
    assert (V1 : n / 4096 mod 64 < 64) by (apply N.mod_lt; lia).
    assert (V2 : n / 64 mod 64 < 64) by (apply N.mod_lt; lia).
    rewrite (proj1 (b64_val_char _ V0)), (proj1 (b64_val_char _ V1)), (proj1 (b64_val_char _ V2)).
    replace (b64_char (n / 64 mod 64) =? 61) with false by (pose proof (proj2 (b64_val_char _ V2)); lia).
    change (61 =? 61) with true. cbn iota.
    assert (E1 : n / 64 = (a * 256 + b) * 4). { subst n. replace (a * 65536 + b * 256) with ((a * 256 + b) * 4 * 64) by lia. apply N.div_mul. lia. }
    assert (E2 : n / 4096 = n / 64 / 64) by (rewrite N.div_div by lia; reflexivity).
    assert (E3 : n / 262144 = n / 64 / 64 / 64) by (rewrite !N.div_div by lia; reflexivity).
    rewrite E2, E3, E1 in *. remember ((a * 256 + b) * 4) as m.
    assert (M4 : (m mod 64) mod 4 = 0). { subst m. change 64 with (16 * 4). rewrite N.mul_mod_distr_r by lia. apply N.mod_mul. lia. }
    rewrite M4. change (0 =? 0) with true. cbn iota.
    assert (R : m / 64 / 64 * 4096 + (m / 64) mod 64 * 64 + m mod 64 = m).
    { pose proof (N.div_mod m 64 ltac:(lia)). pose proof (N.div_mod (m / 64) 64 ltac:(lia)). lia. }
    rewrite R. subst m. rewrite N.div_mul by lia. do 2 f_equal; [|f_equal].
    + rewrite N.div_add_l by lia. rewrite (N.div_small b) by lia. lia.
    + rewrite N.add_comm, N.mod_add by lia. apply N.mod_small. lia.
  - apply Forall_cons_iff in B as [A B]. apply Forall_cons_iff in B as [B C]. apply Forall_cons_iff in C as [C D]. unfold byte_ok in A, B, C.
    cbn [b64_encode b64_decode]. cbv zeta. rewrite IH by (auto; cbn in L; lia).
    remember (a * 65536 + b * 256 + c) as n.
    assert (V0 : n / 262144 < 64) by (apply N.div_lt_upper_bound; lia).
    assert (V1 : n / 4096 mod 64 < 64) by (apply N.mod_lt; lia).
    assert (V2 : n / 64 mod 64 < 64) by (apply N.mod_lt; lia).
    assert (V3 : n mod 64 < 64) by (apply N.mod_lt; lia).
    rewrite (proj1 (b64_val_char _ V0)), (proj1 (b64_val_char _ V1)), (proj1 (b64_val_char _ V2)), (proj1 (b64_val_char _ V3)).
    replace (b64_char (n mod 64) =? 61) with false by (pose proof (proj2 (b64_val_char _ V3)); lia). cbn iota.
    assert (E2 : n / 4096 = n / 64 / 64) by (rewrite N.div_div by lia; reflexivity).
    assert (E3 : n / 262144 = n / 64 / 64 / 64) by (rewrite !N.div_div by lia; reflexivity).
    rewrite E2, E3 in *.
    assert (R : ((n / 64 / 64 / 64 * 64 + (n / 64 / 64) mod 64) * 64 + (n / 64) mod 64) * 64 + n mod 64 = n).
    { pose proof (N.div_mod n 64 ltac:(lia)). pose proof (N.div_mod (n / 64) 64 ltac:(lia)). pose proof (N.div_mod (n / 64 / 64) 64 ltac:(lia)). lia. }
    rewrite R. 
    assert (Q1 : n / 256 = a * 256 + b). { subst n. replace (a * 65536 + b * 256 + c) with ((a * 256 + b) * 256 + c) by lia. rewrite N.div_add_l by lia. rewrite (N.div_small c) by lia. lia. }
    assert (Q0 : n / 65536 = a). { replace 65536 with (256 * 256) by lia. rewrite <- N.div_div by lia. rewrite Q1, N.div_add_l by lia. rewrite (N.div_small b) by lia. lia. }
    assert (Q2 : n mod 256 = c). { subst n. replace (a * 65536 + b * 256 + c) with (c + (a * 256 + b) * 256) by lia. rewrite N.mod_add by lia. apply N.mod_small. lia. }
    assert (Q3 : n / 256 mod 256 = b). { rewrite Q1. rewrite N.add_comm, N.mod_add by lia. apply N.mod_small. lia. }
    now rewrite Q0, Q2, Q3.
Qed.
Lemma b64_roundtrip : forall l, bytes_ok l -> b64_decode (b64_encode l) = Some l.
Proof. intros. apply (b64_three (length l)); auto. Qed.

(** Picture types *)
Lemma from_as_u8 : forall p, (forall n, p = PUndefined n -> 20 < n) -> pic_from_u8 (pic_as_u8 p) = p.
Proof.
  intros p H. destruct p; try reflexivity. specialize (H n eq_refl). unfold pic_from_u8. cbn [pic_as_u8].
  replace (nth_error named_types (N.to_nat n)) with (@None pic_type); auto. symmetry. apply nth_error_None. cbn. lia.
Qed.
Lemma as_from_u8 : forall b, pic_as_u8 (pic_from_u8 b) = b.
Proof.
  intros. destruct (b <? 21) eqn:E.
  - assert (A : allN 21 0 (fun b => pic_as_u8 (pic_from_u8 b) =? b) = true) by (vm_compute; reflexivity).
    apply N.eqb_eq. apply (allN_spec _ _ _ A). lia.
  - unfold pic_from_u8. replace (nth_error named_types (N.to_nat b)) with (@None pic_type); auto. symmetry. apply nth_error_None. cbn. lia.
Qed.
Lemma ape_key_roundtrip : forall p k, pic_as_ape_key p = Some k -> pic_from_ape_key k = p.
Proof. intros p k H. destruct p; try discriminate; injection H as <-; vm_compute; reflexivity. Qed.

(** Text fields *)
Lemma trim_last : forall s, last s 1 <> 0 -> trim_end_nulls s = s.
Proof.
  intros s H. destruct (trim_spec s) as [[n E] L]. destruct n. { cbn in E. now rewrite app_nil_r in E. }
  exfalso. apply H. rewrite E. cbn [repeat]. rewrite repeat_cons, app_assoc. apply last_last.
Qed.
Lemma utf8_field : forall s, str_ok s -> last s 1 <> 0 -> utf8_decode (utf8_enc s) = Ok s.
Proof. intros. unfold utf8_decode. rewrite utf8_dec_enc by auto. now rewrite trim_last. Qed.
Lemma utf8_enc_nil : forall s, utf8_enc s = [] -> s = [].
Proof. intros [|c s] X; auto. cbn in X. pose proof (utf8_char_len c) as L. apply app_eq_nil in X as [X _]. rewrite X in L. cbn in L. lia. Qed.
Lemma lenN_pos : forall A (l : list A), l <> [] -> 0 < lenN l.
Proof. intros A [|] H; [congruence|]. rewrite lenN_cons. lia. Qed.

Lemma flac_total : forall c m, from_flac_inner c m <> Panic.
Proof.
  intros. unfold from_flac_inner, flac_desc, or_eof, utf8_decode.
  repeat (match goal with
  | |- context [if ?b then _ else _] => destruct b
  | |- context [match read_be ?n ?r with _ => _ end] => destruct (read_be n r) as [[? ?]|]; cbn [bind]
  | |- context [match utf8_dec ?n with _ => _ end] => destruct (utf8_dec n); cbn [bind]
  | |- _ => cbn [bind]
  end; try discriminate).
Qed.
