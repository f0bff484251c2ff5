(** Chains of f64 operations. *)
From Verif Require Import BaseLemmas MathModel MathThm IffModel AiffModel AiffProof3.
From Verif Require Export F64Proof.
From Verif Require Import Base Str.

(** [x] is a positive f64 within [j * 2^-53] of [p / q], relatively. *)
Definition near (x : rat) (p q j : N) : Prop := 0 < p /\ 0 < q /\ 0 < snd x /\ 0 < fst x /\ close x p q j.
Lemma close_mul : forall x y p q a b i j, i * j <= E53 -> close x p q i -> close y a b j -> close (fst x * fst y, snd x * snd y) (p * a) (q * b) (i + j + 1).
Proof.
  assert (G : forall x1 x2 p q y1 y2 a b i j, i * j <= E53 -> x1 * q * E53 <= p * x2 * (E53 + i) -> y1 * b * E53 <= a * y2 * (E53 + j) -> x1 * y1 * (q * b) * E53 <= p * a * (x2 * y2) * (E53 + (i + j + 1))).
  { intros x1 x2 p q y1 y2 a b i j IJ A B. apply (N.mul_le_mono_pos_l _ _ E53 e53_pos). pose proof (N.mul_le_mono _ _ _ _ A B) as M.
    replace (E53 * (x1 * y1 * (q * b) * E53)) with (x1 * q * E53 * (y1 * b * E53)) by lia. eapply N.le_trans; [exact M|]. replace (p * x2 * (E53 + i) * (a * y2 * (E53 + j))) with (p * a * (x2 * y2) * ((E53 + i) * (E53 + j))) by lia.
    replace (E53 * (p * a * (x2 * y2) * (E53 + (i + j + 1)))) with (p * a * (x2 * y2) * (E53 * (E53 + (i + j + 1)))) by lia. apply N.mul_le_mono_l. replace ((E53 + i) * (E53 + j)) with (E53 * (E53 + (i + j)) + i * j) by lia. lia. }
  intros x y p q a b i j IJ [A1 A2] [B1 B2]. split; cbn [fst snd].
  - now apply G.
  - apply (G p q (fst x) (snd x) a b (fst y) (snd y) i j); auto; lia.
Qed.
Lemma near_round : forall x p q j, near x p q j -> q < 2 ^ 200 -> 2 * j <= E53 -> near (f64_round x) p q (j + 3) /\ snd (f64_round x) = SCALE.
Proof.
  intros x p q j (P0 & Q0 & S0 & F0 & C) QB J. assert (JE : j < E53) by (assert (E := e53_pos); lia). pose proof (close_big x p q j P0 Q0 QB JE C) as B.
  destruct (round_close (fst x) (snd x) F0 S0 B) as [RS RC]. rewrite <- surjective_pairing in RS, RC. pose proof (close_trans (f64_round x) x p q j 2 F0 S0 ltac:(lia) RC C) as T. replace (j + 2 + 1) with (j + 3) in T by lia.
  split; [|exact RS]. assert (SP := scale_pos). assert (SX : 0 < snd (f64_round x)) by (rewrite RS; exact SP). refine (conj P0 (conj Q0 (conj SX (conj _ T)))). eapply close_pos; [exact P0|exact SX|exact T].
Qed.
Lemma near_int : forall n, 0 < n -> n < 2 ^ 53 -> near (of_int n) n 1 0.
Proof.
  intros n N0 N1. rewrite of_int_exact by auto. assert (SP := scale_pos). refine (conj N0 (conj (eq_refl : 0 < 1) (conj SP (conj _ _)))). { cbn [fst]. now apply N.mul_pos_pos. } split; cbn [fst snd]; lia.
Qed.
Lemma near_lit : forall n d, 0 < n -> 0 < d -> near (n, d) n d 0.
Proof. intros n d A B. refine (conj A (conj B (conj B (conj A _)))). split; cbn [fst snd]; lia. Qed.
Lemma near_mul : forall x y p q a b i j, near x p q i -> near y a b j -> q * b < 2 ^ 200 -> i * j <= E53 -> 2 * (i + j + 1) <= E53 -> near (r_mul x y) (p * a) (q * b) (i + j + 4) /\ snd (r_mul x y) = SCALE.
Proof.
  intros x y p q a b i j (P0 & Q0 & S0 & F0 & C) (A0 & B0 & T0 & G0 & D) QB IJ J. unfold r_mul. replace (i + j + 4) with (i + j + 1 + 3) by lia. apply near_round; auto.
  refine (conj (N.mul_pos_pos _ _ P0 A0) (conj (N.mul_pos_pos _ _ Q0 B0) (conj (N.mul_pos_pos _ _ S0 T0) (conj (N.mul_pos_pos _ _ F0 G0) _)))). now apply close_mul.
Qed.
Lemma near_inv : forall x p q j, near x p q j -> near (snd x, fst x) q p j.
Proof. intros x p q j (P0 & Q0 & S0 & F0 & C). refine (conj Q0 (conj P0 (conj F0 (conj S0 _)))). pose proof (close_div x p q 1 j C) as D. rewrite !N.mul_1_l in D. exact D. Qed.
Lemma near_div : forall x y p q a b i j, near x p q i -> near y a b j -> q * a < 2 ^ 200 -> i * j <= E53 -> 2 * (i + j + 1) <= E53 -> near (r_div x y) (p * b) (q * a) (i + j + 4) /\ snd (r_div x y) = SCALE.
Proof. intros x y p q a b i j X Y QB IJ J. exact (near_mul x (snd y, fst y) p q b a i j X (near_inv _ _ _ _ Y) QB IJ J). Qed.
(** Truncation *)
Lemma near_floor : forall x p q j max, near x p q j -> p * E53 < (max + 1) * q * E53 - p * j -> let n := to_int max x in n * q * E53 <= p * (E53 + j) /\ p * E53 < (n + 1) * q * (E53 + j).
Proof.
  intros x p q j max (P0 & Q0 & S0 & F0 & C) MB n. destruct C as [C1 C2]. pose proof (N.div_mod (fst x) (snd x) ltac:(lia)) as D. pose proof (N.mod_lt (fst x) (snd x) ltac:(lia)) as M.
  set (m := fst x / snd x) in *. set (k := fst x mod snd x) in *. assert (A1 : m * q * E53 <= p * (E53 + j)).
  { apply (N.mul_le_mono_pos_l _ _ (snd x) S0). apply N.le_trans with (fst x * q * E53). - replace (snd x * (m * q * E53)) with (snd x * m * q * E53) by lia. apply N.mul_le_mono_r, N.mul_le_mono_r. lia. - lia. }
  assert (MM : m <= max). { destruct (N.le_gt_cases m max) as [|G]; [auto|]. exfalso. assert ((max + 1) * q * E53 <= m * q * E53) by (apply N.mul_le_mono_r, N.mul_le_mono_r; lia). lia. }
  assert (E : n = m) by (unfold n, to_int; fold m; lia). rewrite E. split; [exact A1|].
  apply (N.mul_lt_mono_pos_l (snd x) _ _ S0). apply N.le_lt_trans with (fst x * q * (E53 + j)); [lia|]. replace (snd x * ((m + 1) * q * (E53 + j))) with (snd x * (m + 1) * (q * (E53 + j))) by lia.
  replace (fst x * q * (E53 + j)) with (fst x * (q * (E53 + j))) by lia. apply N.mul_lt_mono_pos_r; [|lia]. apply N.mul_pos_pos; auto. assert (X := e53_pos). lia.
Qed.
