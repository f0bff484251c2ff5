(** Which words are frame headers; the searches. *)
From Verif Require Import BaseLemmas StrLemmas.
From Verif Require Export MpegProof.

Lemma peel : forall w k j, N.shiftr w k = 2 ^ j * N.shiftr w (k + j) + N.land (N.shiftr w k) (N.ones j).
Proof.
  intros. rewrite N.land_ones, <- N.shiftr_shiftr. rewrite (N.shiftr_div_pow2 (N.shiftr w k)). apply N.div_mod. apply N.pow_nonzero. lia.
Qed.
Lemma land_lt : forall w j, N.land w (N.ones j) < 2 ^ j.
Proof. intros. rewrite N.land_ones. apply N.mod_lt. apply N.pow_nonzero. lia. Qed.
Lemma bit_of : forall n, n < 2 -> bit (n =? 1) = n.
Proof. intros n H. destruct (N.eqb_spec n 1); subst; cbn [bit]; lia. Qed.
Lemma accepted : forall w h, N.shiftr w 21 = 0x7FF -> header_read w = Some h -> exists f, valid f /\ word f = w /\ h = header_of f.
Proof.
  intros w h S H.
  pose proof (land_lt (N.shiftr w 10) 2) as L10. pose proof (land_lt (N.shiftr w 12) 4) as L12. pose proof (land_lt (N.shiftr w 4) 2) as L4.
  change (N.ones 2) with 3 in *. change (N.ones 4) with 15 in *.
  assert (VV : exists v, N.land (N.shiftr w 19) 3 = version_bits v).
  { unfold header_read in H. pose proof (land_lt (N.shiftr w 19) 2) as L. change (N.ones 2) with 3 in L. remember (N.land (N.shiftr w 19) 3) as z.
    assert (X : z = 0 \/ z = 1 \/ z = 2 \/ z = 3) by lia. destruct X as [-> | [-> | [-> | ->]]]; [exists MV2_5|discriminate H|exists MV2|exists MV1]; reflexivity. }
  assert (VL : exists l, N.land (N.shiftr w 17) 3 = layer_bits l).
  { unfold header_read in H. destruct VV as (v & VV). rewrite VV in H. pose proof (land_lt (N.shiftr w 17) 2) as L. change (N.ones 2) with 3 in L. remember (N.land (N.shiftr w 17) 3) as z.
    assert (X : z = 0 \/ z = 1 \/ z = 2 \/ z = 3) by lia.
    destruct X as [-> | [-> | [-> | ->]]]; [destruct v; discriminate H|exists Layer3|exists Layer2|exists Layer1]; reflexivity. }
  assert (VM : exists m, N.land (N.shiftr w 6) 3 = mode_bits m).
  { pose proof (land_lt (N.shiftr w 6) 2) as L. change (N.ones 2) with 3 in L. remember (N.land (N.shiftr w 6) 3) as z.
    assert (X : z = 0 \/ z = 1 \/ z = 2 \/ z = 3) by lia. destruct X as [-> | [-> | [-> | ->]]]; [exists Stereo|exists JointStereo|exists DualChannel|exists SingleChannel]; reflexivity. }
  assert (VE : exists e, N.land w 3 = emph_bits e).
  { pose proof (land_lt w 2) as L. change (N.ones 2) with 3 in L. remember (N.land w 3) as z.
    assert (X : z = 0 \/ z = 1 \/ z = 2 \/ z = 3) by lia. destruct X as [-> | [-> | [-> | ->]]]; [exists None|exists (Some MS5015)|exists (Some EReserved)|exists (Some CCIT_J17)]; reflexivity. }
  destruct VV as (v & VV), VL as (l & VL), VM as (m & VM), VE as (e & VE).
  set (f := mkFld v l (N.land (N.shiftr w 16) 1 =? 1) (N.land (N.shiftr w 12) 15) (N.land (N.shiftr w 10) 3) (N.land (N.shiftr w 9) 1 =? 1)
    (N.land (N.shiftr w 8) 1 =? 1) m (N.land (N.shiftr w 4) 3) (N.land (N.shiftr w 3) 1 =? 1) (N.land (N.shiftr w 2) 1 =? 1) e).
  assert (W : word f = w).
  { unfold word, f. cbn [fl_version fl_layer fl_unprotected fl_bitrate fl_rate fl_padded fl_private fl_mode fl_ext fl_copyright fl_original fl_emphasis].
    fold (version_bits v). fold (layer_bits l). fold (mode_bits m). fold (emph_bits e). rewrite <- VV, <- VL, <- VM, <- VE.
    rewrite !bit_of by (apply (land_lt _ 1)).
    pose proof (peel w 0 2) as P0. pose proof (peel w 2 1) as P2. pose proof (peel w 3 1) as P3. pose proof (peel w 4 2) as P4. pose proof (peel w 6 2) as P6.
    pose proof (peel w 8 1) as P8. pose proof (peel w 9 1) as P9. pose proof (peel w 10 2) as P10. pose proof (peel w 12 4) as P12. pose proof (peel w 16 1) as P16.
    pose proof (peel w 17 2) as P17. pose proof (peel w 19 2) as P19. rewrite N.shiftr_0_r in P0.
    change (N.ones 1) with 1 in *. change (N.ones 2) with 3 in *. change (N.ones 4) with 15 in *.
    change (0 + 2) with 2 in *. change (2 + 1) with 3 in *. change (3 + 1) with 4 in *. change (4 + 2) with 6 in *. change (6 + 2) with 8 in *. change (8 + 1) with 9 in *.
    change (9 + 1) with 10 in *. change (10 + 2) with 12 in *. change (12 + 4) with 16 in *. change (16 + 1) with 17 in *. change (17 + 2) with 19 in *. change (19 + 2) with 21 in *.
    rewrite S in P19. clear - P0 P2 P3 P4 P6 P8 P9 P10 P12 P16 P17 P19.
    remember (N.land w 3) as a0. remember (N.land (N.shiftr w 2) 1) as a2. remember (N.land (N.shiftr w 3) 1) as a3. remember (N.land (N.shiftr w 4) 3) as a4.
    remember (N.land (N.shiftr w 6) 3) as a6. remember (N.land (N.shiftr w 8) 1) as a8. remember (N.land (N.shiftr w 9) 1) as a9. remember (N.land (N.shiftr w 10) 3) as a10.
    remember (N.land (N.shiftr w 12) 15) as a12. remember (N.land (N.shiftr w 16) 1) as a16. remember (N.land (N.shiftr w 17) 3) as a17. remember (N.land (N.shiftr w 19) 3) as a19.
    remember (N.shiftr w 2) as s2. remember (N.shiftr w 3) as s3. remember (N.shiftr w 4) as s4. remember (N.shiftr w 6) as s6. remember (N.shiftr w 8) as s8. remember (N.shiftr w 9) as s9.
    remember (N.shiftr w 10) as s10. remember (N.shiftr w 12) as s12. remember (N.shiftr w 16) as s16. remember (N.shiftr w 17) as s17. remember (N.shiftr w 19) as s19.
    clear Heqa0 Heqa2 Heqa3 Heqa4 Heqa6 Heqa8 Heqa9 Heqa10 Heqa12 Heqa16 Heqa17 Heqa19 Heqs2 Heqs3 Heqs4 Heqs6 Heqs8 Heqs9 Heqs10 Heqs12 Heqs16 Heqs17 Heqs19. lia. }
  assert (V : valid f).
  { unfold valid, f. cbn [fl_bitrate fl_rate fl_ext]. unfold header_read in H. rewrite VV, VL in H.
    remember (N.land (N.shiftr w 12) 15) as b. remember (N.land (N.shiftr w 10) 3) as r. clear VV VL VM VE W f Heqb Heqr.
    assert (X : b = 0 \/ b = 15 \/ 1 <= b <= 14) by lia. assert (Y : r = 3 \/ r <= 2) by lia.
    destruct X as [-> | [-> | X]]; [exfalso; destruct v, l; discriminate H|exfalso; destruct v, l; discriminate H|].
    split; [auto|]. split; [|lia]. destruct Y as [-> |Y]; [|auto]. exfalso. assert (Z : In b [1;2;3;4;5;6;7;8;9;10;11;12;13;14]) by (cbn [In]; lia). cbn [In] in Z. clear - H Z.
    destruct v, l; repeat destruct Z as [<- |Z]; try contradiction; discriminate H. }
  exists f. split; [auto|]. split; [auto|]. rewrite <- W in H. rewrite decode in H by auto. congruence.
Qed.

Lemma sync_word : forall a b c d, a < 256 -> b < 256 -> c < 256 -> d < 256 -> verify_frame_sync a b = true -> N.shiftr (be_dec [a; b; c; d]) 21 = 0x7FF.
Proof.
  intros a b c d A B C D V. unfold verify_frame_sync in V. apply andb_true_iff in V as [V1 V2]. apply N.eqb_eq in V1, V2. subst a.
  rewrite N.shiftr_div_pow2 in V2 |- *. change (be_dec [255; b; c; d]) with (d + 256 * (c + 256 * (b + 256 * (255 + 256 * 0)))).
  change (2 ^ 5) with 32 in V2. change (2 ^ 21) with 2097152. lia.
Qed.
Lemma word_bytes : forall f, valid f -> exists b c d, be_enc 4 (word f) = [255; b; c; d] /\ verify_frame_sync 255 b = true /\ b < 256 /\ c < 256 /\ d < 256 /\ be_dec [255; b; c; d] = word f.
Proof.
  intros f V. pose proof (word_fields f V) as H. cbv zeta in H. destruct H as (_ & _ & _ & _ & _ & _ & _ & _ & _ & _ & L & G).
  pose proof (be_dec_enc 4 (word f) L) as E. pose proof (be_enc_len 4 (word f)) as LL. pose proof (be_enc_ok 4 (word f)) as OK.
  destruct (be_enc 4 (word f)) as [|a [|b [|c [|d [|]]]]] eqn:EE; rewrite ?lenN_cons, ?lenN_nil in LL; try lia.
  assert (BA : a < 256 /\ b < 256 /\ c < 256 /\ d < 256).
  { rewrite !Forall_cons_iff in OK. tauto. }
  change (be_dec [a; b; c; d]) with (d + 256 * (c + 256 * (b + 256 * (a + 256 * 0)))) in E.
  assert (a = 255) by lia. subst a. exists b, c, d. split; [reflexivity|]. split; [|tauto].
  unfold verify_frame_sync. rewrite N.shiftr_div_pow2. apply andb_true_iff. split; [reflexivity|]. apply N.eqb_eq. change (2 ^ 5) with 32. lia.
Qed.

(** ** The search for a frame sync *)
Definition sync_at (r : bytes) (i : N) : Prop := exists a b rest, dropN i r = a :: b :: rest /\ a = 255 /\ 224 <= b.
Lemma verify_iff : forall a b, b < 256 -> verify_frame_sync a b = true <-> a = 255 /\ 224 <= b.
Proof.
  intros a b B. unfold verify_frame_sync. rewrite andb_true_iff, !N.eqb_eq, N.shiftr_div_pow2. change (2 ^ 5) with 32. split; intros [-> H]; split; auto; lia.
Qed.
Lemma dropN_S : forall A i (x : A) l, dropN (1 + i) (x :: l) = dropN i l.
Proof. intros. unfold dropN. replace (N.to_nat (1 + i)) with (S (N.to_nat i)) by lia. reflexivity. Qed.
Lemma scan_spec : forall r prev k, bytes_ok r ->
  match sync_scan prev r k with
  | Some n => exists i, n = k + i /\ sync_at (prev :: r) i /\ forall j, j < i -> ~ sync_at (prev :: r) j
  | None => forall j, ~ sync_at (prev :: r) j
  end.
Proof.
  induction r as [|b r IH]; intros prev k OK; cbn [sync_scan].
  - intros j (a & b & rest & E & _). destruct (N.eq_dec j 0) as [->|J]. discriminate E. replace j with (1 + (j - 1)) in E by lia. rewrite dropN_S in E. unfold dropN in E. rewrite skipn_nil in E. discriminate.
  - apply Forall_cons_iff in OK as [B OK]. destruct (verify_frame_sync prev b) eqn:V.
    + exists 0. rewrite verify_iff in V by auto. split; [lia|]. split; [|intros j J; lia]. exists prev, b, r. tauto.
    + assert (Z : ~ sync_at (prev :: b :: r) 0).
      { intros (a & c & rest & E & H1 & H2). change (prev :: b :: r = a :: c :: rest) in E. injection E as E1 E2 E3. subst.
        assert (X : verify_frame_sync 255 c = true) by (apply verify_iff; auto). congruence. }
      specialize (IH b (k + 1) OK). destruct (sync_scan b r (k + 1)) as [n|].
      * destruct IH as (i & -> & S & F). exists (1 + i). split; [lia|]. split. { destruct S as (a & c & rest & E & H). exists a, c, rest. now rewrite dropN_S. }
        intros j J. destruct (N.eq_dec j 0) as [->|Nz]; auto. intros (a & c & rest & E & H). replace j with (1 + (j - 1)) in E by lia. rewrite dropN_S in E. apply (F (j - 1)); [lia|]. exists a, c, rest. auto.
      * intros j. destruct (N.eq_dec j 0) as [->|Nz]; auto. intros (a & c & rest & E & H). replace j with (1 + (j - 1)) in E by lia. rewrite dropN_S in E. apply (IH (j - 1)). exists a, c, rest. auto.
Qed.
Lemma search_spec : forall r, bytes_ok r ->
  match search_for_frame_sync r with
  | Some i => sync_at r i /\ forall j, j < i -> ~ sync_at r j
  | None => forall j, ~ sync_at r j
  end.
Proof.
  intros [|a r] OK; unfold search_for_frame_sync.
  - intros j (a & b & rest & E & _). unfold dropN in E. rewrite skipn_nil in E. discriminate.
  - apply Forall_cons_iff in OK as [B OK]. pose proof (scan_spec r a 0 OK) as S. destruct (sync_scan a r 0); auto. destruct S as (i & -> & S). now rewrite N.add_0_l.
Qed.

(** ** The search for the last header *)
Definition head_at (r : bytes) (p : N) (h : mheader) : Prop :=
  exists a b c d rest, dropN p r = a :: b :: c :: d :: rest /\ verify_frame_sync a b = true /\ header_read (be_dec [a; b; c; d]) = Some h.
Lemma head_fun : forall r p h h', head_at r p h -> head_at r p h' -> h = h'.
Proof. intros r p h h' (a & b & c & d & t & E & _ & H) (a' & b' & c' & d' & t' & E' & _ & H'). rewrite E in E'. injection E' as <- <- <- <- <-. congruence. Qed.
Lemma nth_dropN : forall A (l : list A) p k d, nth (N.to_nat (p + k)) l d = nth (N.to_nat k) (dropN p l) d.
Proof.
  intros. unfold dropN. replace (N.to_nat (p + k)) with (N.to_nat p + N.to_nat k)%nat by lia.
  generalize (N.to_nat p) as n. intros n. revert l. induction n as [|n IH]; intros l. reflexivity. destruct l as [|x l]. { cbn. now destruct (N.to_nat k). } cbn [Nat.add nth skipn]. apply IH.
Qed.
Lemma rev_scan_spec : forall buf bs tail, rev bs ++ tail = buf ->
  match rev_scan (lenN buf) (lenN tail) (hd 0 tail) bs buf with
  | Some (p, h) => head_at buf p h /\ p < lenN bs /\ forall q h', p < q < lenN bs -> ~ head_at buf q h'
  | None => forall q h', q < lenN bs -> ~ head_at buf q h'
  end.
Proof.
  intros buf. induction bs as [|b bs IH]; intros tail E.
  - cbn [rev_scan]. intros q h' Q. rewrite lenN_nil in Q. lia.
  - cbn [rev] in E. rewrite <- app_assoc in E. cbn [app] in E. specialize (IH (b :: tail) E). cbn [hd] in IH. rewrite lenN_cons in IH.
    cbn [rev_scan]. replace (lenN tail + 1) with (1 + lenN tail) by lia. set (nx := rev_scan _ _ b bs buf) in *.
    assert (LB : lenN buf = lenN bs + 1 + lenN tail) by (rewrite <- E, lenN_app, lenN_rev, lenN_cons; lia).
    assert (DP : dropN (lenN bs) buf = b :: tail) by (rewrite <- E; apply dropN_app; apply lenN_rev).
    (* nothing at this place: go on *)
    assert (GO : (forall h', ~ head_at buf (lenN bs) h') -> match nx with
      | Some (p, h) => head_at buf p h /\ p < lenN (b :: bs) /\ forall q h', p < q < lenN (b :: bs) -> ~ head_at buf q h'
      | None => forall q h', q < lenN (b :: bs) -> ~ head_at buf q h' end).
    { intros NH. rewrite lenN_cons. destruct nx as [[p h]|].
      - destruct IH as (H1 & H2 & H3). split; [auto|]. split; [lia|]. intros q h' Q. destruct (N.eq_dec q (lenN bs)) as [->|]; auto. apply H3. lia.
      - intros q h' Q. destruct (N.eq_dec q (lenN bs)) as [->|]; auto. apply IH. lia. }
    replace (lenN buf - (1 + lenN tail)) with (lenN bs) by lia.
    destruct (verify_frame_sync b (hd 0 tail)) eqn:V.
    + destruct (N.ltb_spec (lenN buf) (lenN bs + 4)) as [L|L].
      * apply GO. intros h' (x & y & z & u & rest & D & _). rewrite DP in D. injection D as D1 D2. subst tail. rewrite !lenN_cons in LB. lia.
      * destruct tail as [|y [|z [|u rest]]]; rewrite ?lenN_cons, ?lenN_nil in LB; try lia. cbn [hd] in *.
        rewrite !nth_dropN, DP. change (nth (N.to_nat 2) (b :: y :: z :: u :: rest) 0) with z. change (nth (N.to_nat 3) (b :: y :: z :: u :: rest) 0) with u.
        destruct (header_read (be_dec [b; y; z; u])) as [h|] eqn:HR.
        -- split. { exists b, y, z, u, rest. auto. } rewrite lenN_cons. split; [lia|]. intros q h' Q. lia.
        -- apply GO. intros h' (x & y' & z' & u' & rest' & D & _ & HR'). rewrite DP in D. injection D as <- <- <- <- <-. congruence.
    + apply GO. intros h' (x & y & z & u & rest & D & V' & _). rewrite DP in D. injection D as D1 D2. subst. cbn [hd] in V. congruence.
Qed.
Lemma head_window : forall data p n q h, q + 4 <= n -> (head_at (takeN n (dropN p data)) q h <-> head_at data (p + q) h).
Proof.
  intros data p n q h Q. unfold head_at.
  assert (E : dropN q (takeN n (dropN p data)) = takeN (n - q) (dropN (p + q) data)).
  { rewrite <- dropN_dropN. unfold dropN at 1, takeN. rewrite skipn_firstn_comm. f_equal. lia. }
  rewrite E. set (r := dropN (p + q) data). split.
  - intros (a & b & c & d & t & D & H). exists a, b, c, d, (dropN 4 r). split; [|auto].
    transitivity (takeN 4 r ++ dropN 4 r); [symmetry; apply takeN_dropN|]. replace (takeN 4 r) with (takeN 4 (takeN (n - q) r)) by (unfold takeN; rewrite firstn_firstn; f_equal; lia). now rewrite D.
  - intros (a & b & c & d & t & D & H). exists a, b, c, d, (takeN (n - q - 4) t). split; [|auto]. rewrite D.
    unfold takeN. replace (N.to_nat (n - q)) with (S (S (S (S (N.to_nat (n - q - 4)))))) by lia. reflexivity.
Qed.
Lemma head_end : forall data p h, head_at data p h -> p + 4 <= lenN data.
Proof. intros data p h (a & b & c & d & t & D & _). pose proof (f_equal (@lenN N) D) as L. rewrite lenN_dropN, !lenN_cons in L. lia. Qed.
Lemma rev_search_spec : forall data pos, pos <= lenN data -> let w := N.min pos 1024 in
  match rev_search data pos with
  | (p, Some h) => head_at data p h /\ pos - w <= p /\ p + 4 <= pos /\ forall q h', p < q -> q + 4 <= pos -> ~ head_at data q h'
  | (p, None) => p = pos - w /\ forall q h', pos - w <= q -> q + 4 <= pos -> ~ head_at data q h'
  end.
Proof.
  intros data pos L w. unfold rev_search. change REV_FRAME_SEARCH_BOUNDS with 1024. fold w. set (base := pos - w).
  set (buf := takeN w (dropN base data)).
  assert (LB : lenN buf = w) by (unfold buf; rewrite lenN_takeN, lenN_dropN; unfold base, w; lia).
  pose proof (rev_scan_spec buf (rev buf) []) as S. rewrite rev_involutive, app_nil_r in S. specialize (S eq_refl). rewrite lenN_nil, LB, lenN_rev, LB in S. cbn [hd] in S.
  assert (WP : w <= pos) by (unfold w; lia).
  destruct (rev_scan w 0 0 (rev buf) buf) as [[p h]|].
  - destruct S as (H1 & H2 & H3). pose proof (head_end _ _ _ H1) as HE. rewrite LB in HE. split. { apply (head_window data base w p h); auto. }
    split; [lia|]. split; [unfold base; lia|]. intros q h' Q1 Q2 H. apply (H3 (q - base) h'); [unfold base in *; lia|].
    apply head_window; [unfold base in *; lia|]. replace (base + (q - base)) with q by (unfold base in *; lia). auto.
  - split; [reflexivity|]. intros q h' Q1 Q2 H. apply (S (q - base) h'); [unfold base in *; lia|].
    apply head_window; [unfold base in *; lia|]. replace (base + (q - base)) with q by (unfold base in *; lia). auto.
Qed.
(** The last header is found when the windows do not cut it. *)
Lemma last_found : forall fuel data first pos s h, pos <= lenN data -> head_at data s h -> header_cmp h first = true ->
  (forall q h', s < q -> q + 4 <= pos -> ~ head_at data q h') -> s + 4 <= pos -> ((pos - s) mod 1024 = 0 \/ 4 <= (pos - s) mod 1024) ->
  (N.to_nat pos < fuel)%nat -> last_frame fuel data first pos = Ok (Some (s, h)).
Proof.
  induction fuel as [|fuel IH]; intros data first pos s h LP H C NO S M F; [lia|]. cbn [last_frame].
  destruct (N.eqb_spec pos 0); [lia|]. pose proof (rev_search_spec data pos LP) as R. cbv zeta in R. destruct (rev_search data pos) as [p [h'|]].
  - destruct R as (R1 & R2 & R3 & R4). destruct (N.lt_trichotomy p s) as [X|[X|X]].
    + exfalso. apply (R4 s h); auto.
    + subst p. rewrite (head_fun _ _ _ _ R1 H). now rewrite C.
    + exfalso. apply (NO p h'); auto.
  - destruct R as (-> & R). assert (W : N.min pos 1024 = 1024 /\ s < pos - 1024).
    { destruct (N.le_gt_cases (pos - N.min pos 1024) s) as [X|X]. { exfalso. apply (R s h); auto. } lia. }
    destruct W as [W SW]. rewrite W in *.
    assert (MM : (pos - 1024 - s) mod 1024 = (pos - s) mod 1024).
    { replace (pos - s) with (pos - 1024 - s + 1 * 1024) by lia. rewrite N.mod_add by lia. reflexivity. }
    assert (S4 : s + 4 <= pos - 1024).
    { destruct M as [M|M].
      - pose proof (N.div_mod (pos - s) 1024 ltac:(lia)) as DM. lia.
      - pose proof (N.div_mod (pos - 1024 - s) 1024 ltac:(lia)) as DM. rewrite MM in DM. lia. }
    apply IH; [lia|auto|auto|intros q h' Q1 Q2; apply NO; lia|auto|rewrite MM; auto|lia].
Qed.
