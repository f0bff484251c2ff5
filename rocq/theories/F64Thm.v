(** The bit rates of AIFF files. *)
From Verif Require Import BaseLemmas StrLemmas MathModel IffModel IffSpec AiffModel AiffProof3 AiffThm F64Proof.

(** [b] is within 1/2 + 2^-17 of [p / q]. *)
Theorem C111_bitrates : forall channels frames size rate more aifc stream file p, 1 <= channels < 2 ^ 16 -> 1 <= frames < 2 ^ 32 -> size < 2 ^ 16 -> 1 <= rate < 2 ^ 32 -> 0 < stream -> stream <= file -> file < 2 ^ 50 ->
  8 * file * rate < U32_MAX * (1000 * frames) -> aiff_properties (comm_chunk channels frames size rate ++ more) aifc stream file = Ok p ->
  nearly_nearest (ap_audio p) (stream * 8 * rate) (frames * 1000) /\ nearly_nearest (ap_overall p) (file * 8 * rate) (frames * 1000).
Proof.
  intros channels frames size rate more aifc stream file p C F S R S0 SF FB SAT H. unfold aiff_properties, comm_chunk in H. rewrite <- !app_assoc in H. unfold read_be in H.
  rewrite (read_exact_app 2 (be_enc 2 channels)) in H by apply be_enc_len. cbn [iord bind] in H. rewrite (be_dec_enc 2 channels) in H by apply C. destruct (N.eqb_spec channels 0); [lia|].
  rewrite (read_exact_app 4 (be_enc 4 frames)) in H by apply be_enc_len. cbn [iord bind] in H. rewrite (read_exact_app 2 (be_enc 2 size)) in H by apply be_enc_len. cbn [iord bind] in H.
  assert (L10 : lenN (f80_of rate) = 10) by (unfold f80_of; rewrite lenN_app, !be_enc_len; reflexivity). rewrite (read_exact_app 10 (f80_of rate)) in H by exact L10. cbn [iord bind] in H.
  rewrite (be_dec_enc 4 frames) in H by apply F. rewrite (be_dec_enc 2 size) in H by exact S.
  destruct (rate_exact rate ltac:(lia) ltac:(apply R)) as (FF & FP & RE). rewrite FF, FP, RE in H. cbn [negb orb] in H.
  unfold aiff_times in H. destruct (N.ltb_spec 0 rate); [|lia]. destruct (N.ltb_spec 0 frames); [|lia]. cbn [andb] in H. fold (f64_length frames rate) in H. fold (f64_kbps file (f64_length frames rate)) in H. fold (f64_kbps stream (f64_length frames rate)) in H.
  assert (LF : frames < 2 ^ 43) by (eapply N.lt_trans; [apply F|reflexivity]).
  assert (KF : nearly_nearest (f64_kbps file (f64_length frames rate)) (file * 8 * rate) (frames * 1000)) by (apply kbps_near; try lia; apply R).
  assert (KS : nearly_nearest (f64_kbps stream (f64_length frames rate)) (stream * 8 * rate) (frames * 1000)).
  { apply kbps_near; try lia; try apply R. eapply N.le_lt_trans; [|exact SAT || (rewrite (N.mul_comm frames); exact SAT)]. rewrite (N.mul_comm 8). apply N.mul_le_mono_r, N.mul_le_mono_r. exact SF. }
  set (a := f64_kbps file _) in *. set (b := f64_kbps stream _) in *. clearbody a b. destruct (negb _). { inversion H; subst. cbn [ap_audio ap_overall]. auto. }
  destruct (read_exact 4 more) as [[ty r]|]; cbn [iord bind] in H; [|discriminate].
  match type of H with (bind ?x _ = _) => destruct x as [comp| |] end; cbn [bind] in H; try discriminate. inversion H; subst. cbn [ap_audio ap_overall]. auto.
Qed.
(** An integer that is nearly the nearest is at a distance of less than 1, and it is the nearest unless the quotient is within 2^-17 of a half. *)
Lemma nearly_unique : forall b p q, 0 < q -> nearly_nearest b p q -> (forall k, 2 ^ 16 * ((2 * k + 1) * q) + q < 2 ^ 16 * (2 * p) \/ 2 ^ 16 * (2 * p) + q < 2 ^ 16 * ((2 * k + 1) * q)) -> b = nearest p q.
Proof.
  intros b p q Q [A B] H. unfold nearest. change (2 ^ 16) with 65536 in *. pose proof (N.div_mod q 2 ltac:(discriminate)) as D. pose proof (N.mod_lt q 2 ltac:(discriminate)) as M. set (h := q / 2) in *. set (r := q mod 2) in *. clearbody h r.
  set (bq := b * q). assert (X1 : 2 * p < 2 * bq + q). { specialize (H b). replace ((2 * b + 1) * q) with (2 * bq + q) in * by (unfold bq; lia). lia. }
  assert (X2 : 2 * bq <= 2 * p + q). { destruct (N.eq_dec b 0) as [->|NZ]; [unfold bq; lia|]. specialize (H (b - 1)). replace ((2 * (b - 1) + 1) * q) with (2 * bq - q) in H by (unfold bq; replace (2 * (b - 1) + 1) with (2 * b - 1) by lia; rewrite N.mul_sub_distr_r; lia).
    replace (2 * b * q) with (2 * bq) in A by (unfold bq; lia). lia. }
  apply (N.div_unique (p + h) q b (p + h - bq)); [|replace (q * b) with bq by (unfold bq; lia)]; lia.
Qed.
Theorem C111_nearest : forall channels frames size rate more aifc stream file p, 1 <= channels < 2 ^ 16 -> 1 <= frames < 2 ^ 32 -> size < 2 ^ 16 -> 1 <= rate < 2 ^ 32 -> 0 < stream -> stream <= file -> file < 2 ^ 50 ->
  8 * file * rate < U32_MAX * (1000 * frames) -> aiff_properties (comm_chunk channels frames size rate ++ more) aifc stream file = Ok p ->
  (forall k, 65536 * ((2 * k + 1) * (frames * 1000)) + frames * 1000 < 65536 * (2 * (stream * 8 * rate)) \/ 65536 * (2 * (stream * 8 * rate)) + frames * 1000 < 65536 * ((2 * k + 1) * (frames * 1000))) ->
  ap_audio p = nearest (stream * 8 * rate) (frames * 1000).
Proof. intros. apply nearly_unique; auto; [lia|]. eapply C111_bitrates; eauto. Qed.
Print Assumptions C111_bitrates.
