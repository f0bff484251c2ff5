(** No input makes the chunk readers panic. *)
From Verif Require Import BaseLemmas StrLemmas TextProof IffModel IffSpec IffProof IffProof2 IffProof3 AiffModel.
From Verif Require Import MathModel.

(** A bound for the position of the reader. *)
Definition outer (s : chunks) : N := match c_lock s with Some (o, _) => o | None => 0 end.
Definition pot (s : chunks) : N := c_pos s + 2 * c_rem s + (c_crem s - c_rem s) + 2 * outer s.
Lemma iord_inv : forall A (x : option A) v, iord x = Ok v -> x = Some v. Proof. intros A [a|] v H; inversion H; auto. Qed.
Ltac okinv H := let E := fresh "E" in match type of H with (bind ?x _) = _ => destruct x eqn:E; cbn [bind] in H; try discriminate H end.

Lemma correct_ok : forall s size, match correct_position s size with
  | Ok s' => c_total s' = c_total s /\ c_lock s' = c_lock s /\ c_size s' = c_size s /\ c_crem s' = c_crem s /\ c_rem s' <= c_rem s /\ (c_crem s = 0 -> pot s' <= pot s)
  | Err _ => True | Panic => False end.
Proof.
  intros [total rem csize crem lk rest pos] size. unfold correct_position. destruct (N.even size || (rem <? 1)) eqn:E. { cbn. repeat split; auto; lia. }
  apply orb_false_iff in E as [_ E]. apply N.ltb_ge in E. destruct (read_u8 rest) as [[b r]|]; cbn [iord bind]; auto.
  destruct (negb (b =? 0) && (4 <? rem)).
  - destruct (read_exact 3 r) as [[f r']|]; cbn [iord bind]; auto. destruct (valid_fourcc (b :: f)); cbn [c_total c_lock c_size c_crem c_rem]; repeat split; auto; try lia; unfold pot, outer; cbn [c_total c_lock c_size c_crem c_rem c_pos]; lia.
  - cbn [c_total c_lock c_size c_crem c_rem]; repeat split; auto; try lia; unfold pot, outer; cbn [c_total c_lock c_size c_crem c_rem c_pos]; lia.
Qed.
Lemma skip_ok : forall s, match skip s with
  | Ok s' => c_total s' = c_total s /\ c_lock s' = c_lock s /\ c_size s' = 0 /\ c_crem s' = 0 /\ c_rem s' <= c_rem s /\ pot s' <= pot s
  | Err _ => True | Panic => False end.
Proof.
  intros [total rem csize crem lk rest pos]. unfold skip.
  set (s1 := if 0 <? crem then mkCh total (rem - crem) csize 0 lk (dropN crem rest) (pos + crem) else mkCh total rem csize crem lk rest pos).
  assert (S1 : c_total s1 = total /\ c_lock s1 = lk /\ c_crem s1 = 0 /\ c_rem s1 <= rem /\ pot s1 <= pot (mkCh total rem csize crem lk rest pos)).
  { unfold s1. destruct (N.ltb_spec 0 crem); cbn [c_total c_lock c_crem c_rem]; repeat split; auto; try lia; unfold pot, outer; cbn [c_pos c_total c_lock c_crem c_rem]; lia. }
  destruct S1 as (A & B & C & D & E). assert (CO := correct_ok s1 csize). destruct (correct_position s1 csize) as [[t2 r2 z2 k2 l2 rs2 p2]|e|]; cbn [bind]; auto.
  destruct CO as (A2 & B2 & _ & C2 & D2 & E2). cbn [c_total c_lock c_size c_crem c_rem] in *. specialize (E2 C). repeat split; try congruence; try lia.
  unfold pot, outer in *. cbn [c_pos c_total c_lock c_crem c_rem c_size] in *. lia.
Qed.
Lemma next_ok : forall be m s, match next be m s with
  | Ok (Some c, s') => c_total s' = c_total s /\ c_lock s' = c_lock s /\ c_rem s' + 8 <= c_rem s /\ c_crem s' = k_size c /\ c_size s' = k_size c /\ k_size c <= c_rem s' + 8 /\ pot s' <= pot s
  | Ok (None, s') => c_total s' = c_total s /\ c_lock s' = c_lock s /\ c_rem s' <= c_rem s /\ c_crem s' = 0 /\ pot s' <= pot s
  | Err _ => True | Panic => False end.
Proof.
  intros be m s. unfold next. assert (SO := skip_ok s). destruct (skip s) as [[total rem csize crem lk rest pos]|e|]; cbn [bind]; auto.
  destruct SO as (A & B & C & D & E & F). cbn [c_total c_lock c_size c_crem c_rem] in *. subst csize crem. unfold pot, outer in *. cbn [c_pos c_total c_lock c_crem c_rem] in *.
  destruct (N.ltb_spec rem 8). { cbn [c_total c_lock c_size c_crem c_rem c_pos]. repeat split; auto. }
  destruct (read_exact 4 rest) as [[id r]|] eqn:R; cbn [iord bind]; auto. destruct (negb (valid_fourcc id)).
  { destruct (is_strict m); auto. cbn [c_total c_lock c_size c_crem c_rem c_pos]. repeat split; auto; lia. }
  destruct (read_exact 4 r) as [[b r2]|] eqn:R2; cbn [iord bind]; auto. set (size := dec32 be b). destruct (N.ltb_spec rem size).
  { destruct (is_strict m); auto. cbn [c_total c_lock c_size c_crem c_rem c_pos]. repeat split; auto; lia. }
  cbn [c_total c_lock c_size c_crem c_rem c_pos k_size]. repeat split; auto; lia.
Qed.
Lemma chunk_read_ok : forall n s, match chunk_read n s with
  | Ok (b, s') => c_total s' = c_total s /\ c_lock s' = c_lock s /\ c_size s' = c_size s /\ c_rem s' <= c_rem s /\ c_crem s' + n = c_crem s /\ pot s' <= pot s /\ lenN b = n /\ (n <= c_rem s -> c_rem s' + n = c_rem s)
      /\ (bytes_ok (c_rest s) -> bytes_ok b)
  | Err _ => True | Panic => False end.
Proof.
  intros n [total rem csize crem lk rest pos]. unfold chunk_read. destruct (N.ltb_spec crem n); auto. destruct (read_exact n rest) as [[b r]|] eqn:R; cbn [iord bind]; auto.
  apply read_exact_spec in R as [-> L]. cbn [c_total c_lock c_size c_crem c_rem c_rest]. repeat split; auto; try lia. unfold pot, outer. cbn [c_pos c_total c_lock c_crem c_rem]. lia.
  intro B. apply bytes_ok_app in B. tauto.
Qed.
Lemma lock_ok : forall s, c_lock s = None -> c_crem s <= c_rem s -> exists s', lock s = Ok s' /\ c_total s' = c_total s /\ c_lock s' = Some (c_rem s - c_crem s, c_size s) /\ c_rem s' = c_crem s /\ c_crem s' = 0 /\ pot s' <= pot s.
Proof.
  intros [total rem csize crem lk rest pos] L R. cbn [c_lock c_rem c_crem] in *. subst lk. eexists. split. reflexivity. cbn [c_total c_lock c_size c_crem c_rem].
  repeat split; auto. unfold pot, outer. cbn [c_pos c_total c_lock c_crem c_rem]. lia.
Qed.
Lemma unlock_ok : forall s o p, c_lock s = Some (o, p) -> match unlock s with
  | Ok s' => c_total s' = c_total s /\ c_lock s' = None /\ c_rem s' <= o /\ c_crem s' = 0 /\ pot s' <= pot s
  | Err _ => True | Panic => False end.
Proof.
  intros [total rem csize crem lk rest pos] o p L. cbn [c_lock] in L. subst lk. unfold unlock.
  assert (SO := skip_ok (mkCh total rem csize crem None rest pos)). destruct (skip _) as [[t2 r2 z2 k2 l2 rs2 p2]|e|]; cbn [bind]; auto.
  destruct SO as (A & B & C & D & E & F). cbn [c_total c_lock c_size c_crem c_rem] in *. subst.
  assert (CO := correct_ok (mkCh total o 0 0 None (dropN r2 rs2) (p2 + r2)) p). destruct (correct_position _ p) as [s'|e|]; auto.
  destruct CO as (A2 & B2 & C2 & D2 & E2 & F2). cbn [c_total c_lock c_size c_crem c_rem] in *. specialize (F2 eq_refl). repeat split; auto.
  unfold pot, outer in *. cbn [c_pos c_total c_lock c_crem c_rem] in *. rewrite B2 in *. lia.
Qed.

Lemma parse_info_ok : forall fuel m s items, (N.to_nat (c_rem s) < fuel)%nat -> match parse_riff_info fuel m s items with
  | Ok (_, s') => c_total s' = c_total s /\ c_lock s' = c_lock s /\ c_rem s' <= c_rem s /\ pot s' <= pot s
  | Err _ => True | Panic => False end.
Proof.
  induction fuel as [|fuel IH]; intros m s items F; [lia|]. cbn [parse_riff_info]. assert (NO := next_ok false m s).
  destruct (next false m s) as [[[c|] s1]|e|]; cbn [bind]; auto. 2:{ destruct NO as (A & B & C & D & E). auto. }
  destruct NO as (A & B & C & D & D2 & E & G). assert (RO := chunk_read_ok (k_size c) s1). destruct (chunk_read (k_size c) s1) as [[b s2]|e|]; cbn [bind]; auto.
  destruct RO as (A2 & B2 & C2 & D3 & E2 & G2 & _ & _).
  assert (NP := utf8_nopanic b). destruct (utf8_decode b) as [v|e|]; [| |congruence].
  - specialize (IH m s2 (items ++ [(k_fourcc c, v)]) ltac:(lia)). destruct (parse_riff_info fuel m s2 _) as [[l s']|e|]; auto. destruct IH as (A3 & B3 & C3 & D4). repeat split; try congruence; lia.
  - destruct (is_strict m); auto. specialize (IH m s2 items ltac:(lia)). destruct (parse_riff_info fuel m s2 _) as [[l s']|e2|]; auto. destruct IH as (A3 & B3 & C3 & D4). repeat split; try congruence; lia.
Qed.

Section WAV.
Context {T : Type} (id3 : bytes -> res iff_error T) (join : T -> T -> T) (ID3 : forall b, id3 b <> Panic).
(** The values that the properties are computed from. *)
Definition acc_ok (a : wav_acc T) : Prop := wa_stream a < 2 ^ 32 /\ wa_total a < 2 ^ 32 /\ bytes_ok (wa_fmt a).
Definition reader_ok (s : chunks) : Prop := bytes_ok (c_rest s).
Lemma correct_bytes : forall s size s', reader_ok s -> correct_position s size = Ok s' -> reader_ok s'.
Proof.
  intros [total rem csize crem lk rest pos] size s' B H. unfold correct_position in H. destruct (N.even size || (rem <? 1)). inversion H; subst; auto.
  destruct (read_u8 rest) as [[b r]|] eqn:R; cbn [iord bind] in H; [|discriminate]. unfold reader_ok in *. cbn [c_rest] in *.
  destruct rest as [|x rest]; cbn in R; [discriminate|]. inversion R; subst. assert (B' : bytes_ok r) by now inversion B.
  destruct (negb (b =? 0) && (4 <? rem)). destruct (read_exact 3 r) as [[f r']|]; cbn [iord bind] in H; [|discriminate]. inversion H; subst. destruct (valid_fourcc (b :: f)); auto. inversion H; subst; auto.
Qed.
Lemma skip_bytes : forall s s', reader_ok s -> skip s = Ok s' -> reader_ok s'.
Proof.
  intros [total rem csize crem lk rest pos] s' B H. unfold skip in H.
  set (s1 := if 0 <? crem then mkCh total (rem - crem) csize 0 lk (dropN crem rest) (pos + crem) else mkCh total rem csize crem lk rest pos) in *.
  assert (B1 : reader_ok s1). { unfold s1. destruct (0 <? crem); auto. unfold reader_ok in *. cbn [c_rest] in *. now apply Forall_dropN. }
  destruct (correct_position s1 csize) as [s2| |] eqn:E; cbn [bind] in H; try discriminate. apply correct_bytes in E; auto. destruct s2. inversion H; subst. exact E.
Qed.
Lemma next_bytes : forall be m s c s', reader_ok s -> next be m s = Ok (c, s') -> reader_ok s' /\ (forall k, c = Some k -> k_size k < 2 ^ 32).
Proof.
  intros be m s c s' B H. unfold next in H. destruct (skip s) as [s1| |] eqn:E; cbn [bind] in H; try discriminate. apply skip_bytes in E; auto. destruct s1 as [total rem csize crem lk rest pos].
  unfold reader_ok in E. cbn [c_rest] in E. destruct (rem <? 8). { inversion H; subst. split; auto. discriminate. }
  destruct (read_exact 4 rest) as [[id r]|] eqn:R; cbn [iord bind] in H; [|discriminate]. apply read_exact_spec in R as [-> L]. apply bytes_ok_app in E as [E1 E2].
  destruct (negb (valid_fourcc id)). { destruct (is_strict m); [discriminate|]. inversion H; subst. split; auto. discriminate. }
  destruct (read_exact 4 r) as [[b r2]|] eqn:R2; cbn [iord bind] in H; [|discriminate]. apply read_exact_spec in R2 as [-> L2]. apply bytes_ok_app in E2 as [E2 E3].
  destruct (rem <? dec32 be b). { destruct (is_strict m); [discriminate|]. inversion H; subst. split; auto. discriminate. }
  inversion H; subst. split; [exact E3|]. intros k Q. inversion Q; subst. cbn [k_size]. unfold dec32. destruct be.
  - apply be_dec_bound in E2. rewrite L2 in E2. exact E2.
  - apply le_dec_bound in E2. rewrite L2 in E2. exact E2.
Qed.
Lemma read_bytes : forall n s b s', reader_ok s -> chunk_read n s = Ok (b, s') -> reader_ok s' /\ bytes_ok b.
Proof.
  intros n [total rem csize crem lk rest pos] b s' B H. unfold chunk_read in H. destruct (crem <? n); [discriminate|]. destruct (read_exact n rest) as [[x r]|] eqn:R; cbn [iord bind] in H; [|discriminate].
  inversion H; subst. apply read_exact_spec in R as [-> L]. unfold reader_ok in *. cbn [c_rest] in *. apply bytes_ok_app in B. tauto.
Qed.
Lemma parse_bytes : forall fuel m s items r, reader_ok s -> parse_riff_info fuel m s items = Ok r -> reader_ok (snd r).
Proof.
  induction fuel as [|fuel IH]; intros m s items r B H; cbn [parse_riff_info] in H; [discriminate|].
  destruct (next false m s) as [[c s1]| |] eqn:E; cbn [bind] in H; try discriminate. apply next_bytes in E as [E _]; auto. destruct c as [c|]. 2:{ inversion H; subst. exact E. }
  destruct (chunk_read (k_size c) s1) as [[b s2]| |] eqn:E2; cbn [bind] in H; try discriminate. apply read_bytes in E2 as [E2 _]; auto.
  destruct (utf8_decode b); [eauto| |discriminate]. destruct (is_strict m); [discriminate|eauto].
Qed.
Lemma unlock_bytes : forall s s', reader_ok s -> unlock s = Ok s' -> reader_ok s'.
Proof.
  intros [total rem csize crem lk rest pos] s' B H. unfold unlock in H. destruct lk as [[o p]|]; [|inversion H; subst; exact B].
  destruct (skip (mkCh total rem csize crem None rest pos)) as [s1| |] eqn:E; cbn [bind] in H; try discriminate. apply skip_bytes in E; auto. destruct s1 as [t2 r2 z2 k2 l2 rs2 p2]. apply correct_bytes in H; auto. unfold reader_ok in *. cbn [c_rest] in *. now apply Forall_dropN.
Qed.

Lemma wav_chunk_ok : forall fuel m tags props file_len c s a, c_lock s = None -> c_crem s = k_size c -> file_len = c_total s -> c_rem s <= c_total s -> (N.to_nat (c_total s) < fuel)%nat ->
  reader_ok s -> k_size c < 2 ^ 32 -> acc_ok a ->
  match wav_chunk id3 join fuel m tags props file_len c s a with
  | Ok (a', s') => c_total s' = c_total s /\ c_lock s' = None /\ c_rem s' <= c_rem s /\ pot s' <= pot s /\ reader_ok s' /\ acc_ok a'
  | Err _ => True | Panic => False end.
Proof.
  intros fuel m tags props file_len c s a L CR FL RT F RO KS (AO1 & AO2 & AO3). unfold wav_chunk.
  assert (RDX := fun n => chunk_read_ok n s). assert (RDB := fun n b s' => read_bytes n s b s' RO).
  destruct (list_eqb (k_fourcc c) ($"fmt ") && props && (lenN (wa_fmt a) =? 0)).
  { specialize (RDX (k_size c)). destruct (chunk_read (k_size c) s) as [[b s1]| |] eqn:E; cbn [bind]; auto. apply RDB in E. destruct RDX as (A & B & C & D & _ & P & _). destruct E. repeat split; auto; congruence. }
  destruct (list_eqb (k_fourcc c) ($"fact") && props && (wa_total a =? 0)).
  { specialize (RDX 4). destruct (chunk_read 4 s) as [[b s1]| |] eqn:E; cbn [bind]; auto. apply RDB in E. destruct RDX as (A & B & C & D & _ & P & LB & _). destruct E as [E1 E2]. repeat split; auto; try congruence.
    cbn [wa_total]. apply le_dec_bound in E2. rewrite LB in E2. exact E2. }
  destruct (list_eqb (k_fourcc c) ($"data") && props && (wa_stream a =? 0)). { repeat split; auto. lia. lia. }
  destruct (list_eqb (k_fourcc c) ($"LIST")).
  { destruct (N.ltb_spec (k_size c) 4); auto. specialize (RDX 4). destruct (chunk_read 4 s) as [[ty s1]| |] eqn:E; cbn [bind]; auto. apply RDB in E as [E1 _]. destruct RDX as (A & B & C & D & CR2 & P & _ & RX & _).
    destruct (negb (list_eqb ty ($"INFO")) || negb tags). { repeat split; auto; congruence. }
    unfold c_position. destruct (N.ltb_spec file_len (c_total s1 - c_rem s1 + (k_size c - 4))) as [|FLE]; auto.
    assert (C4 : c_crem s1 <= c_rem s1) by lia.
    destruct (lock_ok s1 ltac:(congruence) C4) as (s2 & LK & A2 & B2 & C2 & D2 & P2). rewrite LK. cbn [bind].
    assert (RO2 : reader_ok s2). { destruct s1 as [? ? ? ? [?|] ? ?]; cbn [lock] in LK; [discriminate|]. inversion LK; subst. exact E1. }
    assert (PO := parse_info_ok fuel m s2 (wa_info a) ltac:(rewrite C2; lia)). destruct (parse_riff_info fuel m s2 (wa_info a)) as [[items s3]| |] eqn:E3; cbn [bind]; auto. apply parse_bytes in E3; auto. cbn [snd] in E3.
    destruct PO as (A3 & B3 & C3 & P3). assert (UO := unlock_ok s3 (c_rem s1 - c_crem s1) (c_size s1) ltac:(congruence)). destruct (unlock s3) as [s4| |] eqn:E4; cbn [bind]; auto. apply unlock_bytes in E4; auto.
    destruct UO as (A4 & B4 & C5 & D4 & P4). repeat split; auto; try congruence; lia. }
  destruct ((list_eqb (k_fourcc c) ($"ID3 ") || list_eqb (k_fourcc c) ($"id3 ")) && tags).
  { unfold id3_chunk. specialize (RDX (k_size c)). destruct (chunk_read (k_size c) s) as [[b s1]| |] eqn:E; cbn [bind]; auto. apply RDB in E as [E _]. destruct RDX as (A & B & C & D & _ & P & _).
    destruct (lenN b <? 10). { destruct (is_strict m); cbn [bind]; auto. repeat split; auto; congruence. }
    specialize (ID3 b). destruct (id3 b); cbn [bind]; auto. repeat split; auto; congruence. }
  repeat split; auto; lia.
Qed.
Lemma wav_loop_ok : forall fuel fuel0 m tags props s a, c_lock s = None -> c_rem s <= c_total s -> (N.to_nat (c_total s) < fuel0)%nat -> (N.to_nat (c_rem s) < fuel)%nat -> reader_ok s -> acc_ok a ->
  match wav_loop id3 join fuel0 fuel m tags props (c_total s) s a with
  | Ok (a', s') => acc_ok a' /\ c_pos s' <= pot s
  | Err _ => True | Panic => False end.
Proof.
  induction fuel as [|fuel IH]; intros fuel0 m tags props s a L RT F0 F RO AO; [lia|]. cbn [wav_loop]. assert (NO := next_ok false m s).
  destruct (next false m s) as [[[c|] s1]|e|] eqn:E; cbn [bind]; auto.
  2:{ destruct NO as (A & B & C & D & P). split; auto. unfold pot in P at 1. lia. }
  apply next_bytes in E as [E KS]; auto. specialize (KS c eq_refl). destruct NO as (A & B & C & D & D2 & D3 & P).
  assert (WO := wav_chunk_ok fuel0 m tags props (c_total s) c s1 a ltac:(congruence) D ltac:(congruence) ltac:(lia) ltac:(rewrite A; lia) E KS AO).
  destruct (wav_chunk id3 join fuel0 m tags props (c_total s) c s1 a) as [[a' s2]| |]; cbn [bind]; auto. destruct WO as (A2 & B2 & C2 & P2 & RO2 & AO2).
  specialize (IH fuel0 m tags props s2 a' B2 ltac:(lia) ltac:(lia) ltac:(lia) RO2 AO2). replace (c_total s) with (c_total s2) by congruence.
  destruct (wav_loop id3 join fuel0 fuel m tags props (c_total s2) s2 a') as [[a'' s3]| |]; auto. destruct IH. split; auto. lia.
Qed.
End WAV.

Lemma div64r_ok : forall a b, 0 < b -> a + b < 2 ^ 64 -> div64r a b = Ok ((a + b / 2) / b).
Proof.
  intros a b B L. unfold div64r, div_round. change U64_MAX with 18446744073709551615. change (2 ^ 64) with 18446744073709551616 in L. rewrite N.shiftr_div_pow2. change (2 ^ 1) with 2.
  assert (b / 2 <= b) by (apply N.div_le_upper_bound; lia). destruct (N.ltb_spec 18446744073709551615 (a + b / 2)); [lia|]. destruct (N.eqb_spec b 0); [lia|]. reflexivity.
Qed.
Lemma read_le_bound : forall n b v r, bytes_ok b -> read_le n b = Some (v, r) -> v < 256 ^ n /\ bytes_ok r.
Proof.
  intros n b v r B H. unfold read_le in H. destruct (read_exact n b) as [[x r']|] eqn:E; [|discriminate]. inversion H; subst. apply read_exact_spec in E as [-> L]. apply bytes_ok_app in B as [B1 B2]. split; auto. rewrite <- L. now apply le_dec_bound.
Qed.
Lemma read_fmt_ok : forall b, bytes_ok b -> match read_fmt b with Ok f => m_rate f < 2 ^ 32 /\ m_byterate f < 2 ^ 32 /\ m_bits f < 2 ^ 16 /\ m_channels f < 2 ^ 8 /\ m_align f < 2 ^ 16 | Err _ => True | Panic => False end.
Proof.
  intros b B. unfold read_fmt.
  destruct (read_le 2 b) as [[tag r1]|] eqn:E1; cbn [iord bind]; auto. apply read_le_bound in E1 as [L1 B1]; auto.
  destruct (read_le 2 r1) as [[ch r2]|] eqn:E2; cbn [iord bind]; auto. apply read_le_bound in E2 as [L2 B2]; auto.
  destruct (read_le 4 r2) as [[rate r3]|] eqn:E3; cbn [iord bind]; auto. apply read_le_bound in E3 as [L3 B3]; auto.
  destruct (read_le 4 r3) as [[br r4]|] eqn:E4; cbn [iord bind]; auto. apply read_le_bound in E4 as [L4 B4]; auto.
  destruct (read_le 2 r4) as [[al r5]|] eqn:E5; cbn [iord bind]; auto. apply read_le_bound in E5 as [L5 B5]; auto.
  destruct (read_le 2 r5) as [[bits r6]|] eqn:E6; cbn [iord bind]; auto. apply read_le_bound in E6 as [L6 B6]; auto.
  assert (A8 : as_u8 ch < 2 ^ 8) by (unfold as_u8; apply N.mod_lt; discriminate).
  destruct (tag =? 65534). destruct (lenN b <? 40); auto.
  destruct (read_le 2 r6) as [[x1 r7]|]; cbn [iord bind]; auto. destruct (read_le 2 r7) as [[x2 r8]|]; cbn [iord bind]; auto. destruct (read_le 4 r8) as [[x3 r9]|]; cbn [iord bind]; auto. destruct (read_le 2 r9) as [[x4 r10]|]; cbn [iord bind]; auto.
  all: cbn; auto.
Qed.
Lemma wav_properties_ok : forall fmt total stream file, bytes_ok fmt -> total < 2 ^ 32 -> stream < 2 ^ 32 -> file < 2 ^ 59 -> wav_properties fmt total stream file <> Panic.
Proof.
  intros fmt total stream file B T S FI. unfold wav_properties. destruct (lenN fmt <? 16); [discriminate|]. destruct (stream =? 0); [discriminate|].
  assert (RF := read_fmt_ok fmt B). destruct (read_fmt fmt) as [f| |]; cbn [bind]; [|discriminate|contradiction]. destruct RF as (R1 & R2 & R3 & R4 & R5).
  destruct (N.eqb_spec (m_channels f) 0); [discriminate|]. destruct (negb (m_bits f mod 8 =? 0)); [discriminate|].
  set (pcm := (m_tag f =? 1) || (m_tag f =? 3)). destruct (negb pcm && (total =? 0)); [discriminate|].
  change (2 ^ 32) with 4294967296 in *. change (2 ^ 59) with 576460752303423488 in *.
  set (tot := if (0 <? m_bits f) && ((total =? 0) || pcm) then stream / (m_channels f * (m_bits f / 8)) else total).
  assert (TB : tot < 4294967296). { unfold tot. destruct (_ && _); auto. destruct (N.eq_dec (m_channels f * (m_bits f / 8)) 0) as [Z|Z]. rewrite Z. destruct stream; [reflexivity|]. cbn. reflexivity. apply N.le_lt_trans with stream; auto. apply N.div_le_upper_bound; auto. nia. }
  assert (AU : exists a, (if 0 <? m_byterate f then let? x := div64r (m_byterate f * 8) 1000 in Ok (as_u32 x) else Ok 0) = (Ok a : res iff_error N)).
  { destruct (0 <? m_byterate f); [|eauto]. rewrite div64r_ok; [cbn [bind]; eauto|reflexivity|change (2 ^ 64) with 18446744073709551616; lia]. }
  destruct AU as (a & ->). cbn [bind].
  match goal with |- (let? x := ?e in _) <> _ => assert (NE : e <> Panic); [|destruct e as [[[d o] au]| |]; cbn [bind]; congruence] end.
  change U64_MAX with 18446744073709551615.
  destruct ((0 <? m_rate f) && (0 <? tot)) eqn:C1.
  - apply andb_true_iff in C1 as [C1 C2]. apply N.ltb_lt in C1, C2. rewrite div64r_ok by (auto; change (2 ^ 64) with 18446744073709551616; lia). cbn [bind].
    set (len := (tot * 1000 + m_rate f / 2) / m_rate f). assert (LB : len < 8 * 2 ^ 42). { change (8 * 2 ^ 42) with 35184372088832. unfold len. apply N.div_lt_upper_bound; [lia|]. assert (m_rate f / 2 <= m_rate f) by (apply N.div_le_upper_bound; lia). nia. }
    change (8 * 2 ^ 42) with 35184372088832 in LB. destruct (N.ltb_spec 0 len); [|discriminate]. destruct (N.ltb_spec 18446744073709551615 (file * 8)); [lia|].
    rewrite div64r_ok by (auto; change (2 ^ 64) with 18446744073709551616; lia). cbn [bind]. destruct (a =? 0); cbn [bind]; [|discriminate].
    rewrite div64r_ok by (auto; change (2 ^ 64) with 18446744073709551616; lia). discriminate.
  - destruct ((0 <? stream) && (0 <? m_byterate f)) eqn:C2; [|discriminate]. apply andb_true_iff in C2 as [C2 C3]. apply N.ltb_lt in C2, C3.
    rewrite div64r_ok by (auto; change (2 ^ 64) with 18446744073709551616; lia). cbn [bind].
    set (len := (stream * 1000 + m_byterate f / 2) / m_byterate f). assert (LB : len < 8 * 2 ^ 42). { change (8 * 2 ^ 42) with 35184372088832. unfold len. apply N.div_lt_upper_bound; [lia|]. assert (m_byterate f / 2 <= m_byterate f) by (apply N.div_le_upper_bound; lia). nia. }
    change (8 * 2 ^ 42) with 35184372088832 in LB. destruct (N.ltb_spec 0 len); [|discriminate]. destruct (N.ltb_spec 18446744073709551615 (file * 8)); [lia|].
    rewrite div64r_ok by (auto; change (2 ^ 64) with 18446744073709551616; lia). discriminate.
Qed.
Lemma verify_wav_total : forall data, match verify_wav data with Ok (_, r) => r = dropN 12 data /\ 12 <= lenN data | Err _ => True | Panic => False end.
Proof.
  intro data. unfold verify_wav. destruct (read_exact 12 data) as [[id r]|] eqn:E; cbn [iord bind]; auto. apply read_exact_spec in E as [-> L]. destruct (_ && _); auto. split. symmetry. now apply dropN_app. rewrite lenN_app. lia.
Qed.
Lemma wav_read_total : forall T (id3 : bytes -> res iff_error T) join m tags props data, (forall b, id3 b <> Panic) -> bytes_ok data -> lenN data < 2 ^ 57 -> wav_read id3 join m tags props data <> Panic.
Proof.
  intros T id3 join m tags props data ID3 B L. unfold wav_read. assert (V := verify_wav_total data). destruct (verify_wav data) as [[slen r]| |]; cbn [bind]; [|discriminate|contradiction]. destruct V as [-> LD].
  change (2 ^ 57) with 144115188075855872 in L.
  assert (LEN : N.to_nat (lenN data) = length data) by (unfold lenN; apply Nat2N.id).
  assert (WL := wav_loop_ok id3 join ID3 (S (length data)) (S (length data)) m tags props (chunks_new (dropN 12 data) 12 (lenN data - 12)) (mkWa 0 0 [] [] None) eq_refl ltac:(cbn; lia) ltac:(cbn [chunks_new c_total]; lia) ltac:(cbn [chunks_new c_rem]; lia)).
  cbn [chunks_new c_total] in WL. specialize (WL ltac:(unfold reader_ok; cbn [c_rest]; now apply Forall_dropN) ltac:(repeat split; cbn; auto; try lia; constructor)).
  unfold chunks_new in *. destruct (wav_loop id3 join _ _ m tags props (lenN data - 12) _ _) as [[a s]| |]; cbn [bind]; [|discriminate|contradiction]. destruct WL as [(A1 & A2 & A3) P].
  unfold pot, outer in P. cbn [c_pos c_rem c_crem c_lock] in P.
  destruct props; [|discriminate]. assert (WP := wav_properties_ok (wa_fmt a) (wa_total a) (wa_stream a) (c_pos s) A3 A2 A1 ltac:(change (2 ^ 59) with 576460752303423488; lia)).
  destruct (wav_properties _ _ _ _); cbn [bind]; congruence.
Qed.

(** ** AIFF *)
Lemma read_comments_total : forall n s, match read_comments n s with Ok (_, s') => c_total s' = c_total s /\ c_rem s' <= c_rem s | Err _ => True | Panic => False end.
Proof.
  induction n as [|n IH]; intro s; cbn [read_comments]. { split; auto. lia. }
  assert (R1 := chunk_read_ok 4 s). destruct (chunk_read 4 s) as [[t s1]| |]; cbn [bind]; auto. destruct R1 as (A1 & _ & _ & B1 & _).
  assert (R2 := chunk_read_ok 2 s1). destruct (chunk_read 2 s1) as [[t2 s2]| |]; cbn [bind]; auto. destruct R2 as (A2 & _ & _ & B2 & _).
  assert (R3 := chunk_read_ok 2 s2). destruct (chunk_read 2 s2) as [[t3 s3]| |]; cbn [bind]; auto. destruct R3 as (A3 & _ & _ & B3 & _).
  unfold chunk_string. assert (R4 := chunk_read_ok (be_dec t3) s3). destruct (chunk_read (be_dec t3) s3) as [[t4 s4]| |]; cbn [bind]; auto. destruct R4 as (A4 & _ & _ & B4 & _).
  assert (NP := utf8_nopanic t4). destruct (utf8_decode t4); cbn [bind]; auto. specialize (IH s4). destruct (read_comments n s4) as [[l s5]| |]; cbn [bind]; auto. destruct IH. split; [congruence|lia].
Qed.
Lemma string_total : forall n s, match chunk_string n s with Ok (_, s') => c_total s' = c_total s /\ c_rem s' <= c_rem s | Err _ => True | Panic => False end.
Proof.
  intros n s. unfold chunk_string. assert (R := chunk_read_ok n s). destruct (chunk_read n s) as [[b s1]| |]; cbn [bind]; auto. destruct R as (A & _ & _ & B & _). assert (NP := utf8_nopanic b). destruct (utf8_decode b); auto.
Qed.
Lemma aiff_properties_ok : forall comm aifc stream file, aiff_properties comm aifc stream file <> Panic.
Proof.
  intros comm aifc stream file. unfold aiff_properties.
  destruct (read_be 2 comm) as [[ch r1]|]; cbn [iord bind]; [|discriminate]. destruct (ch =? 0); [discriminate|].
  destruct (read_be 4 r1) as [[fr r2]|]; cbn [iord bind]; [|discriminate]. destruct (read_be 2 r2) as [[sz r3]|]; cbn [iord bind]; [|discriminate].
  destruct (read_exact 10 r3) as [[f r4]|]; cbn [iord bind]; [|discriminate]. destruct (_ || _); [discriminate|].
  destruct (aiff_times _ _ _ _) as [[d o] au].
  destruct (negb _); [discriminate|]. destruct (read_exact 4 r4) as [[ty r5]|]; cbn [iord bind]; [|discriminate].
  destruct (find _ comp_table) as [[k c]|]; cbn [bind]; [discriminate|].
  destruct (read_u8 r5) as [[n r6]|]; cbn [iord bind]; [|discriminate]. destruct (0 <? n); cbn [bind]; [|discriminate].
  destruct (read_exact n r6) as [[b r7]|]; cbn [iord bind]; [|discriminate]. assert (NP := utf8_nopanic b). destruct (utf8_decode b); cbn [bind]; congruence.
Qed.
Lemma aiff_read_total : forall T (id3 : bytes -> res iff_error T) join m tags props data, (forall b, id3 b <> Panic) -> aiff_read id3 join m tags props data <> Panic.
Proof.
  intros T id3 join m tags props data ID3. unfold aiff_read.
  assert (V : match verify_aiff data with Panic => False | _ => True end).
  { unfold verify_aiff. destruct (read_exact 12 data) as [[id r]|]; cbn [iord bind]; auto. destruct (negb _); auto. destruct (list_eqb _ _); auto. destruct (list_eqb _ _); auto. }
  destruct (verify_aiff data) as [[aifc r]| |]; cbn [bind]; [|discriminate|contradiction].
  assert (LOOP : forall fuel s a, (N.to_nat (c_rem s) < fuel)%nat -> aiff_loop id3 join fuel m tags props s a <> Panic).
  { induction fuel as [|fuel IH]; intros s a F; [lia|]. cbn [aiff_loop]. assert (NO := next_ok true m s). destruct (next true m s) as [[[c|] s1]| |]; cbn [bind]; try discriminate; [|contradiction].
    destruct NO as (_ & _ & C & _).
    assert (AC : match aiff_chunk id3 join m tags props c s1 a with Ok (_, s2) => c_rem s2 <= c_rem s1 | Err _ => True | Panic => False end).
    { unfold aiff_chunk. destruct a as [comm stream name author copy anno comments tag].
      assert (RD := fun n => chunk_read_ok n s1). assert (ST := fun n => string_total n s1).
      destruct (_ && tags). { unfold id3_chunk. specialize (RD (k_size c)). destruct (chunk_read (k_size c) s1) as [[b s2]| |]; cbn [bind]; auto. destruct RD as (_ & _ & _ & D & _). destruct (lenN b <? 10). destruct (is_strict m); auto. specialize (ID3 b). destruct (id3 b); cbn [bind]; auto. }
      destruct (_ && is_none comm). { destruct (k_size c <? 18); auto. specialize (RD (k_size c)). destruct (chunk_read (k_size c) s1) as [[b s2]| |]; cbn [bind]; auto. apply RD. }
      destruct (_ && props). lia.
      destruct (_ && tags). { specialize (ST (k_size c)). destruct (chunk_string (k_size c) s1) as [[x s2]| |]; cbn [bind]; auto. apply ST. }
      destruct (_ && is_nil comments && tags). { destruct (k_size c <? 2). lia. specialize (RD 2). destruct (chunk_read 2 s1) as [[n s2]| |]; cbn [bind]; auto. destruct RD as (_ & _ & _ & D & _). assert (RC := read_comments_total (N.to_nat (be_dec n)) s2). destruct (read_comments _ s2) as [[l s3]| |]; cbn [bind]; auto. lia. }
      destruct (_ && is_none name && tags). { specialize (ST (k_size c)). destruct (chunk_string (k_size c) s1) as [[x s2]| |]; cbn [bind]; auto. apply ST. }
      destruct (_ && is_none author && tags). { specialize (ST (k_size c)). destruct (chunk_string (k_size c) s1) as [[x s2]| |]; cbn [bind]; auto. apply ST. }
      destruct (_ && is_none copy && tags). { specialize (ST (k_size c)). destruct (chunk_string (k_size c) s1) as [[x s2]| |]; cbn [bind]; auto. apply ST. }
      lia. }
    destruct (aiff_chunk id3 join m tags props c s1 a) as [[a' s2]| |]; cbn [bind]; [|discriminate|contradiction]. apply IH. lia. }
  specialize (LOOP (S (length data)) (chunks_new r 12 (lenN data - 12)) (mkAa None 0 None None None [] [] None)). cbn [chunks_new c_rem] in LOOP.
  assert (LEN : N.to_nat (lenN data) = length data) by (unfold lenN; apply Nat2N.id). specialize (LOOP ltac:(lia)). unfold chunks_new in *.
  destruct (aiff_loop id3 join _ m tags props _ _) as [[a s]| |]; cbn [bind]; [|discriminate|congruence]. destruct props; [|discriminate].
  destruct (aa_comm a) as [cm|]; [|discriminate]. destruct (aa_stream a =? 0); [discriminate|]. assert (AP := aiff_properties_ok cm aifc (aa_stream a) (c_pos s)). destruct (aiff_properties _ _ _ _); cbn [bind]; congruence.
Qed.
