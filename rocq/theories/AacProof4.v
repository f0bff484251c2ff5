(** Reading an AAC file does not panic. *)
From Verif Require Import BaseLemmas StrLemmas Id3v2HeaderProof Id3v2HeaderThm ApeThm2 ApeProof2 TextProof MpegProof4 MpegProof5 FrameTotalThm Id3v1Thm.
From Verif Require Import Id3v1Model ApeModel FrameReadModel Id3v2HeaderModel.
From Verif Require Export AacProof3.

(** A header that says that the frame is empty. *)
Definition empty_frame (data : bytes) (p : N) : Prop :=
  exists b1 b2 b3 b4 b5 b6 t, dropN p data = 255 :: b1 :: b2 :: b3 :: b4 :: b5 :: b6 :: t /\ 224 <= b1 /\ b3 mod 4 = 0 /\ b4 = 0 /\ b5 < 32.
Lemma adts_facts : forall data p h, syncs data p -> adts_read (dropN p data) = Ok h -> (a_len h = 0 -> empty_frame data p) /\ a_bitrate h <= a_len h.
Proof.
  intros data p h (b & t & D & B) R. rewrite D in R. unfold adts_read in R. destruct (read_exact 7 (255 :: b :: t)) as [[hd r]|] eqn:RE; [|discriminate]. cbv zeta in R.
  destruct (N.land (N.shiftr (nth 2 hd 0) 2) 15 =? 15); [discriminate|]. injection R as <-. cbn [a_len a_bitrate]. split.
  - intros Z. apply read_exact_spec in RE as [E L]. destruct hd as [|h0 [|h1 [|h2 [|h3 [|h4 [|h5 [|h6 [|]]]]]]]]; rewrite ?lenN_cons, ?lenN_nil in L; try lia. cbn [nth] in Z. rewrite E in D. cbn [app] in D, E.
    injection E as <- <- _. exists b, h2, h3, h4, h5, h6, r. split; [exact D|]. split; [exact B|]. apply N.lor_eq_0_iff in Z as [Z Z3]. apply N.lor_eq_0_iff in Z as [Z1 Z2].
    rewrite N.shiftl_eq_0_iff in Z1, Z2. change 3 with (N.ones 2) in Z1. rewrite N.land_ones in Z1. rewrite N.shiftr_div_pow2 in Z3. split; [exact Z1|]. split; [exact Z2|]. apply N.div_small_iff in Z3; [exact Z3|discriminate].
  - apply scaled. generalize (N.to_nat (N.land (N.shiftr (nth 2 hd 0) 2) 15)). intros n. do 15 (destruct n as [|n]; [cbn [nth AAC_RATES]; lia|]). cbn [nth AAC_RATES]. destruct n; lia.
Qed.
Lemma adts_np : forall r, adts_read r <> Panic.
Proof. intros. unfold adts_read. destruct (read_exact 7 r) as [[? ?]|]; [|discriminate]. cbv zeta. destruct (_ =? 15); discriminate. Qed.
Lemma find_adts_total : forall data, bytes_ok data -> forall fuel pos, lenN data - pos < N.of_nat fuel ->
  find_adts fuel data pos <> Panic /\
  forall h e, find_adts fuel data pos = Ok (Some (h, e)) -> exists s, pos <= s /\ e = s + a_len h /\ e + 4 <= lenN data /\ syncs data s /\ adts_read (dropN s data) = Ok h.
Proof.
  intros data OK. induction fuel as [|fuel IH]; intros pos F; [lia|]. cbn [find_adts].
  pose proof (search_spec (dropN pos data) (ok_drop _ _ OK)) as SS.
  destruct (search_for_frame_sync (dropN pos data)) as [rel|] eqn:S; [|split; [discriminate|intros; discriminate]]. apply search_range in S. rewrite lenN_dropN in S. destruct SS as [SS _].
  pose proof (adts_np (dropN (pos + rel) data)) as NP. destruct (adts_read (dropN (pos + rel) data)) as [h| |] eqn:H; [|split; [discriminate|intros; discriminate]|contradiction]. cbn [bind].
  unfold cmp_header. set (p := pos + rel + adts_size h + (a_len h - adts_size h)). assert (P : pos + rel + 7 <= p /\ pos + rel + a_len h <= p) by (unfold p, adts_size; destruct (a_crc h); lia).
  destruct (read_be 4 (dropN p data)) as [[v ?]|] eqn:RB; [|split; [discriminate|intros; discriminate]]. 
  assert (LP : p + 4 <= lenN data). { unfold read_be, read_exact in RB. rewrite lenN_dropN in RB. destruct (N.leb_spec 4 (lenN data - p)); [lia|discriminate]. }
  destruct (_ =? _).
  - split; [discriminate|]. intros h' e E. injection E as <- <-. exists (pos + rel). split; [lia|]. split; [reflexivity|]. split; [lia|]. split; [|exact H]. apply syncs_at in SS. destruct SS as (b & t & D & B). rewrite dropN_dropN in D. exists b, t. auto.
  - destruct (IH p) as [I1 I2]; [lia|]. split; [exact I1|]. intros h' e E. destruct (I2 h' e E) as (s & ? & ?). exists s. split; [lia|auto].
Qed.
Lemma find_next_np : forall data, bytes_ok data -> forall pos, find_next data pos <> Panic.
Proof. intros data OK pos. apply find_adts_total; auto. unfold lenN. lia. Qed.
Lemma count_total : forall data, bytes_ok data -> lenN data < 2 ^ 32 -> (forall p, ~ empty_frame data p) -> forall rounds pos sum count, lenN data - pos < N.of_nat rounds -> sum <= pos -> count <= pos + 1 ->
  count_frames rounds data pos sum count <> Panic.
Proof.
  intros data OK L NE. induction rounds as [|rounds IH]; intros pos sum count R SU CO; [lia|]. cbn [count_frames].
  destruct (find_adts_total data OK (S (length data)) pos) as [T1 T2]; [unfold lenN; lia|]. unfold find_next.
  destruct (find_adts (S (length data)) data pos) as [[[h e]|]| |]; cbn [bind]; [|discriminate|discriminate|contradiction].
  destruct (T2 h e eq_refl) as (s & S1 & S2 & S3 & S4 & S5). destruct (adts_facts data s h S4 S5) as [A1 A2]. assert (a_len h <> 0). { intros Z. apply (NE s). auto. }
  change U32_MAX with 4294967295. change (2 ^ 32) with 4294967296 in *.
  replace (4294967295 <? sum + a_bitrate h) with false by (symmetry; apply N.ltb_ge; lia). replace (4294967295 <? count + 1) with false by (symmetry; apply N.ltb_ge; lia). cbn [orb].
  apply IH; lia.
Qed.
Section Total.
Variable inflate : bytes -> option bytes.
Hypothesis I : forall b c, inflate b = Some c -> lenN c <= lenN b.
Lemma aac_lead_total : forall o data, bytes_ok data -> forall fuel v2 sl pos, (0 < fuel)%nat -> lenN data - pos < N.of_nat fuel ->
  aac_lead inflate fuel data o v2 sl pos <> Panic /\
  forall v2' f sl', aac_lead inflate fuel data o v2 sl pos = Ok (v2', f, sl') -> sl' <= sl /\
    forall h e, f = Some (h, e) -> exists s, pos <= s /\ e = s + a_len h /\ e + 4 <= lenN data /\ syncs data s /\ adts_read (dropN s data) = Ok h.
Proof.
  intros o data OK. induction fuel as [|fuel IH]; intros v2 sl pos F0 F; [lia|]. cbn [aac_lead].
  destruct (read_exact 4 (dropN pos data)) as [[four r]|] eqn:R.
  2:{ split; [discriminate|]. intros v2' f sl' E. injection E as _ <- <-. split; [lia|]. intros h e E. discriminate E. }
  assert (LP : pos + 4 <= lenN data). { unfold read_exact in R. rewrite lenN_dropN in R. destruct (N.leb_spec 4 (lenN data - pos)); [lia|discriminate]. } clear R.
  assert (GO : forall v2 sl1 p, pos < p -> sl1 <= sl -> aac_lead inflate fuel data o v2 sl1 p <> Panic /\
    forall v2' f sl', aac_lead inflate fuel data o v2 sl1 p = Ok (v2', f, sl') -> sl' <= sl /\
    forall h e, f = Some (h, e) -> exists s, pos <= s /\ e = s + a_len h /\ e + 4 <= lenN data /\ syncs data s /\ adts_read (dropN s data) = Ok h).
  { intros v2' sl1 p P SL. destruct (IH v2' sl1 p) as [I1 I2]; [lia|lia|]. split; [exact I1|]. intros v2'' f sl' E. destruct (I2 _ _ _ E) as [J1 J2]. split; [lia|]. intros h e Eq. destruct (J2 h e Eq) as (s & ? & ?). exists s. split; [lia|auto]. }
  destruct (list_eqb (takeN 3 four) ($"ID3")).
  - pose proof (header_left (dropN pos data)) as HL. pose proof (header_total (dropN pos data)) as HT. destruct (header_parse (dropN pos data)) as [[h|e|] rest]; cbn [fst] in HT; [|split; [discriminate|intros; discriminate]|contradiction].
    cbn [aac_tag bind]. destruct HL as [_ HL]. specialize (HL h eq_refl). rewrite lenN_dropN in HL. destruct (sl <? h_size h); [split; [discriminate|intros; discriminate]|].
    assert (SK : forall v2 (rest' : bytes), lenN rest' <= lenN rest -> let r := if tf_footer (h_flags h) then if sl - h_size h <? 10 then Err AcSize else aac_lead inflate fuel data o v2 (sl - h_size h - 10) (lenN data - lenN rest' + 10)
                                            else aac_lead inflate fuel data o v2 (sl - h_size h) (lenN data - lenN rest') in
      r <> Panic /\ forall v2' f sl', r = Ok (v2', f, sl') -> sl' <= sl /\ forall h e, f = Some (h, e) -> exists s, pos <= s /\ e = s + a_len h /\ e + 4 <= lenN data /\ syncs data s /\ adts_read (dropN s data) = Ok h).
    { intros v2' rest' L. cbv zeta. destruct (tf_footer (h_flags h)); [destruct (_ <? 10); [split; [discriminate|intros; discriminate]|]|]; apply GO; lia. }
    destruct (mo_tags o).
    + pose proof (C143_total inflate h (mo_frames o) rest I) as PT. destruct (parse_id3v2 inflate h (mo_frames o) rest) as [[t rest']| |] eqn:PE; [|split; [discriminate|intros; discriminate]|contradiction].
      cbn [aac_tag bind]. assert (LR : lenN rest' <= lenN rest). { unfold parse_id3v2 in PE. cbv zeta in PE. destruct (read_all _ _ _ _ _ _ _) as [[? ?]| |]; cbn [bind] in PE; try discriminate. injection PE as _ <-. rewrite lenN_dropN. lia. }
      destruct v2; [apply GO; lia|apply (SK (Some t) rest' LR)].
    + apply (SK v2 rest). lia.
  - destruct (find_adts_total data OK (S (length data)) pos) as [T1 T2]; [unfold lenN; lia|]. unfold find_next.
    destruct (find_adts (S (length data)) data pos) as [f| |]; cbn [bind]; [|split; [discriminate|intros; discriminate]|contradiction].
    split; [discriminate|]. intros v2' f' sl' E. injection E as _ <- <-. split; [lia|]. intros h e ->. apply (T2 h e eq_refl).
Qed.
Lemma aac_total : forall o data rounds, bytes_ok data -> lenN data < 2 ^ 32 -> (forall p, ~ empty_frame data p) -> (length data < rounds)%nat -> aac_read inflate rounds o data <> Panic.
Proof.
  intros o data rounds OK L NE R. unfold aac_read. destruct (skip_zeros data 0) as [pos|]; [|discriminate].
  destruct (aac_lead_total o data OK (S (length data)) None (lenN data) pos) as [T1 T2]; [lia|unfold lenN; lia|].
  destruct (aac_lead inflate (S (length data)) data o None (lenN data) pos) as [[[v2 first] sl]| |]; [|discriminate|contradiction]. cbn [bind]. destruct (T2 _ _ _ eq_refl) as [SL FI].
  destruct (find_id3v1 data) as [p1 found] eqn:F.
  assert (P2 : found = true -> lenN (dropN p1 data) = 128).
  { unfold find_id3v1 in F. destruct (N.ltb_spec (lenN data) 128); [injection F as <- <-; discriminate|]. destruct (list_eqb _ TAG); injection F as <- <-; try discriminate. intros _. rewrite lenN_dropN. lia. }
  assert (V : (if found && mo_tags o then let? t := aac_tag (v1_parse (dropN p1 data) (mo_strict o)) in Ok (Some t) else Ok None) <> @Panic aac_error (option id3v1)).
  { destruct (found && mo_tags o) eqn:FM; [|discriminate]. apply andb_true_iff in FM as [-> _]. pose proof (C47_parse_total (dropN p1 data) (mo_strict o) (P2 eq_refl) (ok_drop _ _ OK)) as T. destruct (v1_parse _ _); cbn [aac_tag bind]; try discriminate. contradiction. }
  match type of V with ?x <> _ => destruct x as [v1| |]; [|discriminate|contradiction] end. cbn [bind].
  assert (SE : exists s, (if found then if sl <? 128 then Err AcSize else Ok (sl - 128) else Ok sl) = s /\ s <> @Panic aac_error N /\ forall n, s = Ok n -> n < 2 ^ 32).
  { eexists. split; [reflexivity|]. destruct found; [destruct (sl <? 128)|]; split; try discriminate; intros n E; injection E as <-; lia. }
  destruct SE as (s & -> & S1 & S2). destruct s as [n| |]; [|discriminate|contradiction]. specialize (S2 n eq_refl). cbn [bind]. destruct (mo_props o); [|discriminate]. destruct first as [[h e]|]; [|discriminate].
  destruct (_ && _); [discriminate|]. destruct (a_bitrate h =? 0); [discriminate|].
  destruct (FI h e eq_refl) as (st & Q1 & Q2 & Q3 & Q4 & Q5). destruct (adts_facts data st h Q4 Q5) as [A1 A2].
  pose proof (count_total data OK L NE rounds e (a_bitrate h) 1) as CT. destruct (count_frames rounds data e (a_bitrate h) 1) as [[sum count]| |]; [|discriminate|exfalso; apply CT; unfold lenN in *; try lia; reflexivity]. cbn [bind].
  unfold aac_properties. destruct (0 <? sum / count); [|discriminate]. change U64_MAX with (2 ^ 64 - 1). destruct (N.ltb_spec (2 ^ 64 - 1) (n * 8)) as [X|_]; [|discriminate]. change (2 ^ 64) with 18446744073709551616 in X. change (2 ^ 32) with 4294967296 in S2. lia.
Qed.
End Total.
