(** Property theorems for OGG files: the last page, audio properties and totality (C100-C103). *)
From Verif Require Import BaseLemmas StrLemmas TextProof PictureThm OggSpec OggCrcProof OggProof OggReadProof OggPacketsProof OggPagProof OggFinal VorbisThm FlacMoveThm RfindThm.
From Verif Require Import OggFileModel OggFileProof OggFileThm.

(** The capture pattern here does not start a page: another version, or no segments. *)
Definition false_hit (d : bytes) : Prop :=
  exists v r, d = OggS ++ v :: r /\ (v <> 0 \/ exists x r', r = x ++ 0 :: r' /\ lenN x = 21).
Lemma lenN_split : forall (x : bytes) a b, lenN x = a + b -> exists u w, x = u ++ w /\ lenN u = a /\ lenN w = b.
Proof. intros. exists (takeN a x), (dropN a x). rewrite takeN_dropN, lenN_takeN, lenN_dropN. repeat split; lia. Qed.
Lemma false_hit_header : forall pos d, false_hit d -> header_read pos d = Err InvalidVersion \/ header_read pos d = Err BadSegmentCount.
Proof.
  intros pos d (v & r & -> & H). unfold header_read. rewrite read_exact_app by reflexivity. cbn [io bind]. rewrite list_eqb_refl. cbn [negb read_u8 io bind].
  destruct (N.eqb_spec v 0) as [->|]; cbn [negb]; [|now left]. right. destruct H as [H|(x & r' & -> & L)]; [congruence|].
  destruct (lenN_split x 1 20) as (a & x1 & -> & L1 & L2); auto. destruct (lenN_split x1 8 12) as (b & x2 & -> & L3 & L4); auto.
  destruct (lenN_split x2 4 8) as (c & x3 & -> & L5 & L6); auto. destruct (lenN_split x3 4 4) as (e & g & -> & L7 & L8); auto.
  destruct a as [|y [|? ?]]; try (vm_compute in L1; discriminate). 2:{ rewrite !lenN_cons in L1. lia. }
  rewrite <- !app_assoc. cbn [app read_u8 io bind]. unfold read_le. rewrite read_exact_app by auto. cbn [io bind]. rewrite read_exact_app by auto. cbn [io bind].
  rewrite read_exact_app by auto. cbn [io bind]. rewrite read_exact_app by auto. cbn [io bind]. reflexivity.
Qed.

Lemma oggs_apart : forall data q c, occurs OggS data q -> occurs OggS data c -> q < c -> q + 4 <= c.
Proof.
  intros data q c (a & b & E & L) (a' & b' & E' & L') H. destruct (N.le_gt_cases (q + 4) c); auto. exfalso.
  assert (N1 : nth_error data (N.to_nat c) = Some 79).
  { rewrite E', nth_error_app2 by (unfold lenN in L'; lia). unfold lenN in L'. replace (N.to_nat c - length a')%nat with O by lia. reflexivity. }
  rewrite E, nth_error_app2 in N1 by (unfold lenN in L; lia). unfold lenN in L.
  assert (D : (N.to_nat c - length a = 1 \/ N.to_nat c - length a = 2 \/ N.to_nat c - length a = 3)%nat) by lia.
  destruct D as [D|[D|D]]; rewrite D in N1; discriminate.
Qed.

Lemma candidate : forall data pos s e, pos <= lenN data -> 
  let (lo, hi) := range_of data pos s e in
  match next_candidate data pos s e with
  | Ok i => last_in OggS data lo hi i
  | Err x => x = OPage MissingMagic /\ none_in OggS data lo hi
  | Panic => False
  end.
Proof.
  intros. destruct (C75_finds_last data pos OggS LAST_BUFFER s e ltac:(discriminate) ltac:(vm_compute; discriminate) H) as (b & p & E & S).
  unfold next_candidate. rewrite E. destruct (range_of data pos s e). destruct b; auto.
Qed.

Lemma last_page_loop_ok : forall fuel data hend q l current, 
  (forall pos, page_read pos (dropN q data) = Ok (mkPage pos (pg_flag l) (pg_abgp l) (pg_serial l) (pg_seq l) (pg_segs l) (pg_cksum l) (pg_content l) (pos + lenN (as_bytes l)), dropN (lenN (as_bytes l)) (dropN q data))) ->
  (exists h r, forall pos, header_read pos (dropN q data) = Ok (h pos, r)) ->
  occurs OggS data q -> hend <= q -> (forall j, occurs OggS data j -> q < j -> false_hit (dropN j data)) ->
  occurs OggS data current -> q <= current -> (N.to_nat (current - q) < fuel)%nat ->
  last_page_loop fuel data hend current = Ok (mkPage q (pg_flag l) (pg_abgp l) (pg_serial l) (pg_seq l) (pg_segs l) (pg_cksum l) (pg_content l) (q + lenN (as_bytes l))).
Proof.
  induction fuel; intros data hend q l current PR (h & r & HR) OQ HE FH OC LE FU; [lia|]. cbn [last_page_loop].
  destruct (N.eq_dec current q) as [->|NE].
  - rewrite HR, PR. reflexivity.
  - pose proof (FH current OC ltac:(lia)) as F. apply (false_hit_header current) in F.
    assert (A := oggs_apart data q current OQ OC ltac:(lia)).
    assert (CL : current <= lenN data) by (destruct OC as (a & b & -> & <-); rewrite lenN_app; lia).
    pose proof (candidate data current FromCurrent (EndPos hend) CL) as NC. cbn [range_of] in NC.
    assert (G : exists c, next_candidate data current FromCurrent (EndPos hend) = Ok c /\ occurs OggS data c /\ q <= c /\ c < current).
    { destruct (next_candidate _ _ _ _) as [c|x|]; [|exfalso; destruct NC as [_ NC]; apply (NC q); auto|destruct NC].
      destruct NC as (N1 & N2 & N3 & N4). exists c. repeat split; auto; change (lenN OggS) with 4 in *; try lia.
      destruct (N.le_gt_cases q c); auto. exfalso. apply (N4 q); auto. }
    destruct G as (c & E & O & L1 & L2). destruct F as [-> | ->]; rewrite E; cbn [bind]; apply IHfuel; eauto; lia.
Qed.

(** C100: the last page is found past any false capture patterns after its start. *)
Theorem C100_last_page : forall pre l tail hend, page_ok l -> hend <= lenN pre ->
  (forall j, occurs OggS (pre ++ as_bytes l ++ tail) j -> lenN pre < j -> false_hit (dropN j (pre ++ as_bytes l ++ tail))) ->
  exists p, find_last_page (pre ++ as_bytes l ++ tail) hend = Ok p /\ fields p = fields l /\ pg_start p = lenN pre.
Proof.
  intros pre l tail hend O HE FH. set (data := pre ++ as_bytes l ++ tail) in *.
  exists (mkPage (lenN pre) (pg_flag l) (pg_abgp l) (pg_serial l) (pg_seq l) (pg_segs l) (pg_cksum l) (pg_content l) (lenN pre + lenN (as_bytes l))).
  split; [|split; reflexivity].
  assert (DQ : dropN (lenN pre) data = as_bytes l ++ tail) by (unfold data; now rewrite dropN_app).
  assert (OQ : occurs OggS data (lenN pre)) by (exists pre, (dropN 4 (as_bytes l) ++ tail); split; reflexivity).
  assert (LD : lenN pre + 27 <= lenN data).
  { unfold data. rewrite !lenN_app. pose proof (as_bytes_len l). assert (27 <= lenN (as_bytes l)) by (unfold lenN; lia). lia. }
  unfold find_last_page. pose proof (candidate data hend FromEnd EndCurrent ltac:(lia)) as NC. cbn [range_of] in NC.
  destruct (next_candidate _ _ _ _) as [c|x|]; [|exfalso; destruct NC as [_ NC]; apply (NC (lenN pre)); auto; change (lenN OggS) with 4; lia|destruct NC].
  destruct NC as (N1 & N2 & N3 & N4). change (lenN OggS) with 4 in *. cbn [bind].
  assert (lenN pre <= c). { destruct (N.le_gt_cases (lenN pre) c); auto. exfalso. apply (N4 (lenN pre)); auto. lia. }
  apply last_page_loop_ok; auto.
  - intros pos. rewrite DQ, page_read_ok by auto. now rewrite dropN_app.
  - eexists (fun pos => _), _. intro pos. rewrite DQ. now apply header_read_ok.
  - unfold lenN in *. lia.
Qed.
Print Assumptions C100_last_page.
Definition no_oggs (d : bytes) : bool := negb (existsb (fun i => list_eqb (takeN 4 (dropN (N.of_nat i) d)) OggS) (seq 1 (length d))).
Lemma no_oggs_spec : forall pre l tail, no_oggs (as_bytes l ++ tail) = true ->
  forall j, occurs OggS (pre ++ as_bytes l ++ tail) j -> lenN pre < j -> false_hit (dropN j (pre ++ as_bytes l ++ tail)).
Proof.
  intros pre l tail H j O L. exfalso. apply occurs_iff in O as [O1 O2]. change (lenN OggS) with 4 in *. rewrite (dropN_app_ge _ j pre) in O1 by lia.
  unfold no_oggs in H. apply negb_true_iff in H. assert (X : existsb (fun i => list_eqb (takeN 4 (dropN (N.of_nat i) (as_bytes l ++ tail))) OggS) (seq 1 (length (as_bytes l ++ tail))) = true); [|congruence].
  apply existsb_exists. exists (N.to_nat (j - lenN pre)). split. apply in_seq. rewrite lenN_app in O2. unfold lenN in *. lia.
  replace (N.of_nat (N.to_nat (j - lenN pre))) with (j - lenN pre) by lia. rewrite O1. apply list_eqb_refl.
Qed.
(** Corollary without false patterns *)
Theorem C100_last_page_plain : forall pre l tail hend, page_ok l -> hend <= lenN pre -> no_oggs (as_bytes l ++ tail) = true ->
  exists p, find_last_page (pre ++ as_bytes l ++ tail) hend = Ok p /\ fields p = fields l /\ pg_start p = lenN pre.
Proof. intros. apply C100_last_page; auto. now apply no_oggs_spec. Qed.
Print Assumptions C100_last_page_plain.
Example C100_ex : let l := pg 4 96312 7 3 (OggS ++ [9; 1; 2] ++ OggS ++ repeat 0 23) in
  match find_last_page (as_bytes (pg 0 960 7 2 [1; 2; 3]) ++ as_bytes l ++ [7]) 3 with Ok p => fields p = fields l | _ => False end.
Proof. vm_compute. reflexivity. Qed.
(** Packet bytes that look like a page header are taken for the last page (no checksum is compared)... *)
Theorem C100_fake_page_refuted : ~ (forall pre l hend p, page_ok l -> hend <= lenN pre ->
  pg_cksum l = crc_spec (as_bytes (set_cksum 0 l)) -> find_last_page (pre ++ as_bytes l) hend = Ok p -> fields p = fields l).
Proof.
  intro H. set (l := pg 4 96312 7 3 (as_bytes (mkPage 0 0 5 6 7 [1] 8 [9] 0))).
  destruct (find_last_page ([] ++ as_bytes l) 0) as [p| |] eqn:E; try (vm_compute in E; discriminate).
  specialize (H [] l 0 p ltac:(vm_compute; intuition (reflexivity || discriminate)) ltac:(vm_compute; discriminate) ltac:(vm_compute; reflexivity) E).
  assert (X : match find_last_page ([] ++ as_bytes l) 0 with Ok p => pg_abgp p | _ => 0 end = 5) by (vm_compute; reflexivity).
  rewrite E in X. apply (f_equal f_abgp) in H. cbn [fields f_abgp] in H. rewrite X in H. vm_compute in H. discriminate.
Qed.
Print Assumptions C100_fake_page_refuted.
(** ... and a capture pattern close to the end of the file makes the search fail instead of going on. *)
Theorem C100_near_end_refuted : ~ (forall pre l hend, page_ok l -> hend <= lenN pre -> exists p, find_last_page (pre ++ as_bytes l) hend = Ok p).
Proof.
  intro H. destruct (H [] (pg 4 96312 7 3 (OggS ++ [0; 1])) 0 ltac:(vm_compute; intuition (reflexivity || discriminate)) ltac:(vm_compute; discriminate)) as [p E].
  vm_compute in E. discriminate.
Qed.
Print Assumptions C100_near_end_refuted.
