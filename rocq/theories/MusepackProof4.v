(** The gains of version 7: f32 arithmetic. *)
From Verif Require Import BaseLemmas MathModel AiffModel AiffProof3 F64Proof.
From Verif Require Export MusepackProof3.
From Verif Require Import Base Str.

Lemma f32_close : forall n d, 0 < n -> 0 < d -> 2 ^ 23 * d <= n * SCALE32 -> exists r, f32_round (n, d) = (r, SCALE32) /\ 2 ^ 24 * (r * d) <= (2 ^ 24 + 1) * (n * SCALE32) /\ (2 ^ 24 - 1) * (n * SCALE32) <= 2 ^ 24 * (r * d).
Proof.
  intros n d N0 D0 B. unfold f32_round. destruct (N.eqb_spec n 0); [lia|]. set (x := n * SCALE32) in *. set (u := 2 ^ (N.log2 (x / d) - 23)). exists (rne x (d * u) * u). split; [reflexivity|].
  assert (Q : 2 ^ 23 <= x / d) by (apply N.div_le_lower_bound; lia). assert (L23 : 23 <= N.log2 (x / d)) by (apply N.log2_le_pow2; lia).
  assert (UX : u * 2 ^ 23 <= x / d). { unfold u. rewrite <- N.pow_add_r. replace (N.log2 (x / d) - 23 + 23) with (N.log2 (x / d)) by lia. apply N.log2_spec. lia. }
  assert (U0 : 0 < u) by (unfold u; apply N.neq_0_lt_0, N.pow_nonzero; discriminate).
  assert (UD : d * u * 2 ^ 23 <= x). { apply N.le_trans with (d * (x / d)). - rewrite <- N.mul_assoc. now apply N.mul_le_mono_l. - apply N.mul_div_le. lia. }
  assert (DU : 0 < d * u) by (now apply N.mul_pos_pos).
  pose proof (rne_near x (d * u) DU) as RC. replace (rne x (d * u) * u * d) with (rne x (d * u) * (d * u)) by lia. set (v := rne x (d * u) * (d * u)) in *. set (w := d * u) in *. clearbody v w x. lia.
Qed.
Lemma sc32 : SCALE32 = 1152921504606846976. Proof. reflexivity. Qed.
(** Gains: 64.82 dB less the stored one, in 1/256 dB, to the nearest *)
Definition gain_near (g v : N) : Prop := 2 * (100 * v) <= 2 * ((6482 - g) * 256) + 100 /\ 2 * ((6482 - g) * 256) <= 2 * (100 * v) + 100.
Lemma gain_positive : forall g, 0 < g <= 6481 -> gain_near g (replay_gain g).
Proof.
  intros g G. unfold replay_gain. destruct (N.eqb_spec g 0); [lia|]. assert (SC := sc32).
  destruct (f32_close g 100) as (y & Y1 & Y2 & Y3); [lia|lia|rewrite SC; lia|]. rewrite Y1. cbv zeta. cbn [fst snd]. change (fst GAIN_REF) with 8496087. change (snd GAIN_REF) with (2 ^ 17).
  change (2 ^ 24 + 1) with 16777217 in *. change (2 ^ 24 - 1) with 16777215 in *. change (2 ^ 24) with 16777216 in *. change (2 ^ 17) with 131072. rewrite SC in Y2, Y3.
  assert (P : y * 131072 + 1152921504606846976 * 1310 - 1000000000000000 < 8496087 * 1152921504606846976) by lia.
  destruct (N.leb_spec (8496087 * SCALE32) (y * 131072)) as [X|X]; [rewrite SC in X; lia|].
  set (dn := 8496087 * SCALE32 - y * 131072). assert (DN : dn = 8496087 * 1152921504606846976 - y * 131072) by (unfold dn; now rewrite SC).
  assert (DL : 1152921504606846976 * 1309 < dn) by lia.
  destruct (f32_close dn (131072 * SCALE32)) as (d & D1 & D2 & D3); [lia|rewrite SC; lia|rewrite SC; lia|]. rewrite D1. cbn [fst snd]. change (2 ^ 24 + 1) with 16777217 in *. change (2 ^ 24 - 1) with 16777215 in *. change (2 ^ 24) with 16777216 in *. rewrite SC in D2, D3.
  assert (D2' : 16777216 * (d * 131072) <= 16777217 * dn) by lia. assert (D3' : 16777215 * dn <= 16777216 * (d * 131072)) by lia. clear D2 D3.
  assert (DP : 10000000000000000 < d) by lia.
  destruct (f32_close (d * 256) SCALE32) as (m & M1 & M2 & M3); [lia|rewrite SC; lia|rewrite SC; lia|]. rewrite M1. cbn [fst snd]. change (2 ^ 24 + 1) with 16777217 in *. change (2 ^ 24 - 1) with 16777215 in *. change (2 ^ 24) with 16777216 in *. rewrite SC in M2, M3.
  assert (M2' : 16777216 * m <= 16777217 * (d * 256)) by lia. assert (M3' : 16777215 * (d * 256) <= 16777216 * m) by lia. clear M2 M3.
  destruct (f32_close (m * 2 + SCALE32) (SCALE32 * 2)) as (w & W1 & W2 & W3); [rewrite SC; lia|rewrite SC; lia|rewrite SC; lia|]. rewrite W1. unfold to_int. cbn [fst snd]. change (2 ^ 24 + 1) with 16777217 in *. change (2 ^ 24 - 1) with 16777215 in *. change (2 ^ 24) with 16777216 in *. rewrite SC in W2, W3 |- *.
  assert (W2' : 16777216 * (w * 2) <= 16777217 * (m * 2 + 1152921504606846976)) by lia. assert (W3' : 16777215 * (m * 2 + 1152921504606846976) <= 16777216 * (w * 2)) by lia. clear W2 W3.
  pose proof (N.div_mod w 1152921504606846976 ltac:(discriminate)) as V. pose proof (N.mod_lt w 1152921504606846976 ltac:(discriminate)) as VL. set (v := w / 1152921504606846976) in *. set (k := w mod 1152921504606846976) in *. clearbody v k dn.
  clear X P Y1 D1 M1 W1 SC n. assert (B : v < 17000) by lia. replace (N.min 32767 v) with v by lia. destruct (N.ltb_spec v 32767); [|lia]. unfold gain_near.
  set (h := 6482 - g) in *. assert (GH : g = 6482 - h /\ h <= 6481) by (unfold h; lia). clearbody h. destruct GH as [-> GH]. split; lia.
Qed.
Lemma gain_negative : forall g, 6482 < g < 2 ^ 16 -> replay_gain g = 0.
Proof.
  intros g G. unfold replay_gain. destruct (N.eqb_spec g 0); [lia|]. assert (SC := sc32). destruct (f32_close g 100) as (y & Y1 & Y2 & Y3); [lia|lia|rewrite SC; lia|]. rewrite Y1. cbv zeta. cbn [fst snd]. change (fst GAIN_REF) with 8496087. change (snd GAIN_REF) with (2 ^ 17).
  destruct (N.leb_spec (8496087 * SCALE32) (y * 2 ^ 17)) as [X|X]; [reflexivity|]. exfalso. change (2 ^ 24 - 1) with 16777215 in *. change (2 ^ 24) with 16777216 in *. change (2 ^ 17) with 131072 in *. rewrite SC in *. lia.
Qed.
