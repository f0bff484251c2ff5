(** * C245: saving a tag that can be encoded does not panic, whatever the file contains *)
From Verif Require Import BaseLemmas StrLemmas Id3v1Model Id3v2HeaderModel Id3v2HeaderThm Id3v1Thm ApeModel ApeThm2 FlacThm MpegProof5.
From Verif Require Import IffModel IffProof5 KeptProof AiffModel.
From Verif Require Mp4WriteModel Mp4Spec Mp4Ex.
From Verif Require Import FrameModel FrameWriteModel ChunkTagModel GenericChunkThm DumpThm.

Theorem C245_id3v1 : forall data t lossy b, v1_encode t lossy = Ok b -> write_id3v1 data t lossy <> Panic.
Proof. intros data t lossy b E. unfold write_id3v1. destruct (find_id3v1 data) as [p f]. destruct (_ && _); [discriminate|]. rewrite E. discriminate. Qed.
Print Assumptions C245_id3v1.
Theorem C245_id3v2 : forall w junk f frames data b, create_tag w f frames = Ok b -> save_id3v2 w junk f frames data <> Panic.
Proof.
  intros w junk f frames data b E. unfold save_id3v2. rewrite E. pose proof (find_junk_total data 0 false junk) as T. destruct (find_id3v2 data 0 false (Some junk)) as [[[? ?] ?]| |]; congruence.
Qed.
Print Assumptions C245_id3v2.

(** ** AIFF: the text chunks found are in order, do not overlap and are inside of the file. *)
Fixpoint asc (lo : N) (l : list (N * N)) (hi : N) : Prop := match l with [] => lo <= hi | (a, b) :: l => lo <= a /\ a <= b /\ asc b l hi end.
Lemma asc_snoc : forall l lo a b hi, asc lo (l ++ [(a, b)]) hi <-> asc lo l a /\ a <= b /\ b <= hi.
Proof. induction l as [|[x y] l IH]; intros; cbn [app asc]; [lia|]. rewrite IH. tauto. Qed.
Lemma asc_more : forall l lo hi hi', asc lo l hi -> hi <= hi' -> asc lo l hi'.
Proof. induction l as [|[x y] l IH]; intros; cbn [asc] in *; [lia|]. destruct H as (A & B & C). repeat split; eauto. Qed.
Lemma next_start : forall be m s c s', IffModel.next be m s = Ok (Some c, s') -> c_position s <= k_start c /\ k_start c <= c_position s' /\ c_total s' = c_total s /\ c_rem s' < c_rem s.
Proof.
  intros be m s c s' H. unfold IffModel.next in H. assert (SO := skip_ok s). destruct (IffModel.skip s) as [[total rem csize crem lk rest pos]|e|]; cbn [bind] in H; try discriminate.
  destruct SO as (A & _ & _ & _ & E & _). cbn [c_total c_rem] in *. destruct (N.ltb_spec rem 8); [discriminate|].
  destruct (read_exact 4 rest) as [[id r]|]; cbn [iord bind] in H; [|discriminate]. destruct (negb (valid_fourcc id)). { destruct (is_strict m); discriminate. }
  destruct (read_exact 4 r) as [[b r2]|]; cbn [iord bind] in H; [|discriminate]. destruct (rem <? dec32 be b). { destruct (is_strict m); discriminate. }
  injection H as <- <-. unfold c_position. cbn [k_start c_total c_rem]. lia.
Qed.
Definition found_ok (n : N) (r : res iff_error (list (N * N) * option N)) : Prop :=
  match r with Ok (l, c) => asc 12 l n /\ (forall x, c = Some x -> 12 <= x <= n) | Err _ => True | Panic => False end.
Lemma texts_ordered : forall fuel m s texts comm n, c_rem s < N.of_nat fuel -> c_rem s <= c_total s -> c_total s + 12 = n -> asc 12 texts (c_position s + 12) -> (forall x, comm = Some x -> 12 <= x <= n) ->
  found_ok n (find_text_chunks fuel m s texts comm).
Proof.
  induction fuel as [|fuel IH]; intros m s texts comm n F R T A C; [lia|]. cbn [find_text_chunks].
  pose proof (next_ok true m s) as NO. destruct (IffModel.next true m s) as [[[c|] s1]| |] eqn:E; cbn [bind]; [| |exact I|contradiction].
  - apply next_start in E as (K1 & K2 & K3 & K4). destruct (is_text_id (k_fourcc c)).
    + pose proof (skip_ok s1) as SO. destruct (IffModel.skip s1) as [s2| |]; cbn [bind]; [|exact I|contradiction]. destruct SO as (T2 & _ & _ & _ & R2 & _).
      unfold c_position in *. apply IH; try lia; auto. unfold c_position. apply asc_snoc. split; [apply asc_more with (c_total s - c_rem s + 12); [exact A|lia]|]. lia.
    + destruct (list_eqb (k_fourcc c) ($"COMM")).
      * pose proof (skip_ok s1) as SO. destruct (IffModel.skip s1) as [s2| |]; cbn [bind]; [|exact I|contradiction]. destruct SO as (T2 & _ & _ & _ & R2 & _).
        unfold c_position in *. apply IH; try lia; auto. { unfold c_position. apply asc_more with (c_total s - c_rem s + 12); [exact A|lia]. } intros x X. injection X as <-. lia.
      * unfold c_position in *. apply IH; try lia; auto. unfold c_position. apply asc_more with (c_total s - c_rem s + 12); [exact A|lia].
  - cbn [found_ok]. split; [|exact C]. apply asc_more with (c_position s + 12); [exact A|]. unfold c_position. lia.
Qed.
Lemma sort_asc : forall l lo hi, asc lo l hi -> sort_ranges l = l.
Proof.
  induction l as [|[a b] l IH]; intros lo hi A; [reflexivity|]. cbn [asc] in A. destruct A as (A1 & A2 & A3). unfold sort_ranges in *. cbn [fold_right]. rewrite (IH _ _ A3).
  destruct l as [|[x y] l]; [reflexivity|]. cbn [insert_range fst]. cbn [asc] in A3. replace (a <=? x) with true by (symmetry; apply N.leb_le; lia). reflexivity.
Qed.
Lemma splice_ok : forall E a b new v, a <= b -> b <= lenN v -> exists w, IffModel.splice (E := E) a b new v = Ok w /\ a + lenN new <= lenN w.
Proof.
  intros E a b new v A B. unfold IffModel.splice. replace (_ || _) with false by (symmetry; apply orb_false_iff; split; apply N.ltb_ge; lia).
  eexists. split; [reflexivity|]. rewrite !lenN_app, lenN_takeN. lia.
Qed.
Lemma drain_ok : forall l lo hi v, asc lo l hi -> hi <= lenN v -> exists w, drain_all (rev l) v = Ok w /\ lo <= lenN w.
Proof.
  induction l as [|[a b] l IH] using rev_ind; intros lo hi v A H; [exists v; split; [reflexivity|cbn in A; lia]|]. apply asc_snoc in A as (A1 & A2 & A3). rewrite rev_app_distr. cbn [rev app drain_all].
  destruct (splice_ok iff_error a b [] v A2 ltac:(lia)) as (w & -> & L). cbn [bind]. apply IH with (hi := a); [exact A1|]. lia.
Qed.
Theorem C245_aiff : forall m data t b, create_text_chunks t = Ok b -> write_aiff_text m data t <> Panic.
Proof.
  intros m data t b E. unfold write_aiff_text, verify_aiff. destruct (read_exact 12 data) as [[id r]|] eqn:R; cbn [iord bind]; [|discriminate].
  apply read_exact_spec in R as [R L]. pose proof (f_equal (@lenN N) R) as LD. rewrite lenN_app in LD.
  destruct (negb _); [discriminate|]. assert (G : forall k : bool, (let? (_, r) := Ok (k, r) in let? text := create_text_chunks t in
    let? (texts, comm) := find_text_chunks (S (length data)) m (chunks_new r 12 (lenN data - 12)) [] None in
    match comm with
    | None => Err IMissingComm
    | Some comm =>
      let? v := (match rev (sort_ranges texts) with
        | [] => IffModel.splice comm comm text data
        | l =>
            let? v := drain_all (removelast l) data in
            IffModel.splice (fst (last l (0, 0))) (snd (last l (0, 0))) text v
        end) in
      let? v := IffModel.splice 4 8 (be_enc 4 (as_u32 (lenN v - 8))) v in
      Ok (rewrite_all v)
    end) <> Panic).
  2:{ destruct (list_eqb (dropN 8 id) ($"AIFF")); [apply (G false)|]. destruct (list_eqb (dropN 8 id) ($"AIFC")); [apply (G true)|discriminate]. }
  intro k. cbn [bind]. rewrite E. cbn [bind].
  pose proof (texts_ordered (S (length data)) m (chunks_new r 12 (lenN data - 12)) [] None (lenN data)) as F. unfold chunks_new at 1 2 3 4 5 in F. unfold c_position in F. cbn [c_rem c_total asc] in F.
  specialize (F ltac:(unfold lenN; lia) ltac:(lia) ltac:(lia) ltac:(lia) ltac:(discriminate)).
  destruct (find_text_chunks (S (length data)) m (chunks_new r 12 (lenN data - 12)) [] None) as [[texts comm]| |]; cbn [bind]; [|discriminate|contradiction]. destruct F as [A C].
  destruct comm as [comm|]; [|discriminate]. specialize (C comm eq_refl).
  assert (K : forall v, 12 <= lenN v -> (let? v := IffModel.splice (E := iff_error) 4 8 (be_enc 4 (as_u32 (lenN v - 8))) v in Ok (rewrite_all v)) <> Panic).
  { intros v V. destruct (splice_ok iff_error 4 8 (be_enc 4 (as_u32 (lenN v - 8))) v ltac:(lia) ltac:(lia)) as (w & -> & _). discriminate. }
  rewrite (sort_asc _ _ _ A). destruct texts as [|[x y] l].
  - cbn [rev]. destruct (splice_ok iff_error comm comm b data ltac:(lia) ltac:(lia)) as (w & -> & LW). cbn [bind]. apply K. lia.
  - cbn [asc] in A. destruct A as (A1 & A2 & A3). cbn [rev]. destruct (rev l ++ [(x, y)]) as [|z q] eqn:Q. { destruct (rev l); discriminate. } rewrite <- Q. rewrite removelast_last, last_last. cbn [fst snd].
    destruct (drain_ok l y (lenN data) data A3 ltac:(lia)) as (v & -> & LV). cbn [bind].
    destruct (splice_ok iff_error x y b v A2 LV) as (w & -> & LW). cbn [bind]. apply K. lia.
Qed.
Print Assumptions C245_aiff.

(** ** RIFF INFO: the size field of the file is not smaller than 4 and no INFO list claims to be larger than the file. *)
Definition at_off (data : bytes) (s : chunks) : Prop := c_rest s = dropN (c_pos s) data /\ 12 <= c_pos s.
Lemma read_exact_drop : forall n p data b r, read_exact n (dropN p data) = Some (b, r) -> b = takeN n (dropN p data) /\ r = dropN (p + n) data.
Proof. intros n p data b r H. unfold read_exact in H. destruct (n <=? _); [|discriminate]. injection H as <- <-. split; [reflexivity|]. apply dropN_dropN. Qed.
Lemma skip_at : forall data s s', at_off data s -> IffModel.skip s = Ok s' -> at_off data s'.
Proof.
  intros data [total rem csize crem lk rest pos] s' [A B] H. cbn [c_rest c_pos] in *. unfold IffModel.skip in H.
  set (s1 := if 0 <? crem then IffModel.mkCh total (rem - crem) csize 0 lk (dropN crem rest) (pos + crem) else IffModel.mkCh total rem csize crem lk rest pos) in H.
  assert (S1 : at_off data s1). { unfold s1. destruct (0 <? crem); split; cbn [c_rest c_pos]; auto; try lia. rewrite A. apply dropN_dropN. }
  clearbody s1. destruct s1 as [t1 r1 z1 k1 l1 rs1 p1]. destruct S1 as [A1 B1]. cbn [c_rest c_pos] in *. unfold correct_position in H.
  destruct (N.even csize || (r1 <? 1)). { cbn [bind] in H. injection H as <-. split; auto. }
  destruct (read_u8 rs1) as [[b r]|] eqn:R; cbn [iord bind] in H; [|discriminate].
  assert (RR : r = dropN (p1 + 1) data). { rewrite <- dropN_dropN, <- A1. destruct rs1 as [|x q]; [discriminate|]. cbn in R. injection R as _ <-. reflexivity. }
  destruct (negb (b =? 0) && (4 <? r1)).
  - destruct (read_exact 3 r) as [[f r']|]; cbn [iord bind] in H; [|discriminate]. destruct (valid_fourcc (b :: f)); cbn [bind] in H; injection H as <-; split; cbn [c_rest c_pos]; auto; lia.
  - cbn [bind] in H. injection H as <-. split; cbn [c_rest c_pos]; auto; lia.
Qed.
Lemma next_at : forall data m s c s', at_off data s -> IffModel.next false m s = Ok (Some c, s') ->
  at_off data s' /\ 20 <= c_pos s' /\ k_fourcc c = takeN 4 (dropN (c_pos s' - 8) data) /\ k_size c = le_dec (takeN 4 (dropN (c_pos s' - 4) data)) /\ c_rem s' < c_rem s.
Proof.
  intros data m s c s' A H. pose proof (next_start _ _ _ _ _ H) as (_ & _ & _ & LT). unfold IffModel.next in H. destruct (IffModel.skip s) as [[total rem csize crem lk rest pos]|e|] eqn:K; cbn [bind] in H; try discriminate.
  apply (skip_at _ _ _ A) in K as [A1 B1]. cbn [c_rest c_pos] in *. destruct (rem <? 8); [discriminate|]. subst rest.
  destruct (read_exact 4 (dropN pos data)) as [[id r]|] eqn:R1; cbn [iord bind] in H; [|discriminate]. apply read_exact_drop in R1 as [-> ->]. destruct (negb _). { destruct (is_strict m); discriminate. }
  destruct (read_exact 4 (dropN (pos + 4) data)) as [[b r2]|] eqn:R2; cbn [iord bind] in H; [|discriminate]. apply read_exact_drop in R2 as [-> ->]. destruct (rem <? _). { destruct (is_strict m); discriminate. }
  injection H as <- <-. cbn [c_pos k_fourcc k_size c_rem] in *. replace (pos + 4 + 4) with (pos + 8) by lia. replace (pos + 8 - 8) with pos by lia. replace (pos + 8 - 4) with (pos + 4) by lia. repeat split; cbn [c_pos]; auto; lia.
Qed.
Lemma read_at : forall data n s b s', at_off data s -> chunk_read n s = Ok (b, s') -> at_off data s' /\ b = takeN n (dropN (c_pos s) data) /\ c_pos s' = c_pos s + n /\ c_rem s' <= c_rem s.
Proof.
  intros data n s b s' [A B] H. pose proof (chunk_read_ok n s) as CO. rewrite H in CO. destruct CO as (_ & _ & _ & R & _). destruct s as [total rem csize crem lk rest pos]. cbn [c_rest c_pos c_rem] in *. unfold chunk_read in H. destruct (crem <? n); [discriminate|].
  rewrite A in H. destruct (read_exact n (dropN pos data)) as [[x y]|] eqn:E; cbn [iord bind] in H; [|discriminate]. apply read_exact_drop in E as [-> ->]. injection H as <- <-. cbn [c_pos c_rem] in *. repeat split; auto. cbn [c_pos]. lia.
Qed.
(** The INFO list at [p]: its size field. *)
Definition info_at (data : bytes) (p size : N) : Prop :=
  12 <= p /\ takeN 4 (dropN p data) = $"LIST" /\ le_dec (takeN 4 (dropN (p + 4) data)) = size /\ takeN 4 (dropN (p + 8) data) = $"INFO".
Lemma info_found : forall data fuel m s, at_off data s -> c_rem s < N.of_nat fuel ->
  match find_info_list fuel m s with Ok None => True | Ok (Some (pos, size)) => 24 <= pos /\ info_at data (pos - 12) size | Err _ => True | Panic => False end.
Proof.
  intros data. induction fuel as [|fuel IH]; intros m s A F; [lia|]. cbn [find_info_list]. pose proof (next_ok false m s) as NO. destruct (IffModel.next false m s) as [[[c|] s1]| |] eqn:E; cbn [bind]; [|exact I|exact I|contradiction].
  apply (next_at data) in E as (A1 & P1 & K1 & K2 & R1); auto. destruct (list_eqb (k_fourcc c) ($"LIST")) eqn:L; cbn [negb].
  2:{ apply IH; auto. lia. } pose proof (chunk_read_ok 4 s1) as CO. destruct (chunk_read 4 s1) as [[ty s2]| |] eqn:E2; cbn [bind]; [|exact I|contradiction].
  apply (read_at data) in E2 as (A2 & T2 & P2 & R2); auto. destruct (list_eqb ty ($"INFO")) eqn:T. 2:{ apply IH; auto. lia. }
  apply list_eqb_eq in L, T. split; [lia|]. rewrite P2. replace (c_pos s1 + 4 - 12) with (c_pos s1 - 8) by lia. unfold info_at. replace (c_pos s1 - 8 + 4) with (c_pos s1 - 4) by lia. replace (c_pos s1 - 8 + 8) with (c_pos s1) by lia.
  repeat split; try congruence. lia.
Qed.
Theorem C245_riff : forall m data t b, create_riff_info t = Ok b -> let slen := le_dec (takeN 4 (dropN 4 data)) in
  4 <= slen -> slen + 8 < 2 ^ 32 -> (forall p size, info_at data p size -> p + size <= slen) -> write_riff_info m data t <> Panic.
Proof.
  intros m data t b E slen S1 S2 IN. unfold write_riff_info, verify_wav. destruct (read_exact 12 data) as [[id r]|] eqn:R; cbn [iord bind]; [|discriminate].
  assert (R' : read_exact 12 (dropN 0 data) = Some (id, r)) by exact R. apply read_exact_drop in R' as [ID _]. apply read_exact_spec in R as [R L]. pose proof (f_equal (@lenN N) R) as LD. rewrite lenN_app in LD.
  destruct (_ && _); cbn [bind]; [|discriminate]. rewrite E. cbn [bind].
  assert (SL : le_dec (takeN 4 (dropN 4 id)) = slen).
  { unfold slen. rewrite R. rewrite (dropN_app_le _ 4) by lia. rewrite takeN_app_le by (rewrite lenN_dropN; lia). reflexivity. }
  rewrite SL. clear SL. change U32_MAX with (2 ^ 32 - 1). replace (2 ^ 32 - 1 <? slen + 8) with false by (symmetry; apply N.ltb_ge; lia).
  destruct (N.ltb_spec (lenN data) (slen + 8)); [discriminate|]. replace (slen <? 4) with false by (symmetry; apply N.ltb_ge; lia).
  pose proof (info_found data (S (length data)) m (chunks_new (dropN 12 data) 12 (slen - 4))) as F. cbn [chunks_new c_rem] in F.
  specialize (F ltac:(split; cbn; [reflexivity|lia]) ltac:(unfold lenN in *; lia)).
  destruct (find_info_list _ _ _) as [[[pos size]|]| |]; cbn [bind]; [| |discriminate|contradiction].
  - destruct F as [P A]. apply IN in A. replace (2 ^ 32 - 1 <? 8 + size) with false by (symmetry; apply N.ltb_ge; lia). replace (slen <? 8 + size) with false by (symmetry; apply N.ltb_ge; lia).
    destruct (_ <? _); [discriminate|]. destruct (splice_ok iff_error (pos - 12) (pos - 12 + (8 + size)) b data ltac:(lia) ltac:(lia)) as (v & -> & LV). cbn [bind].
    destruct (splice_ok iff_error 4 8 (le_enc 4 (lenN b + (slen - (8 + size)))) v ltac:(lia) ltac:(lia)) as (w & -> & _). discriminate.
  - destruct (_ <? _); [discriminate|]. destruct (splice_ok iff_error (slen + 8) (slen + 8) b data ltac:(lia) ltac:(lia)) as (v & -> & LV). discriminate.
Qed.
Print Assumptions C245_riff.

(** ** APE tags, if there is none 8 bytes after the start of the file or after its ID3v2 tag. *)
Lemma find_existing_ok : forall data cover tags h c p, find_id3v2 data 0 false None = Ok (h, c, p) -> takeN 8 (dropN (p + 8) data) <> $"APETAGEX" ->
  match find_existing data cover tags with
  | Ok (header, footer, pos) => header = None /\ pos <= lenN data /\ match footer with Some (a, b) => a <= b /\ b <= lenN data | None => True end
  | Err _ => True | Panic => False end.
Proof.
  intros data cover tags h c p FI NP. unfold find_existing. rewrite FI. pose proof (rd_exact_np 8 (rd_at data p)) as N1. destruct (rd_exact 8 (rd_at data p)) as [[x r]| |] eqn:R1; cbn [bind]; [|exact I|congruence].
  assert (RD : snd r = dropN (p + 8) data). { unfold rd_exact, rd_at in R1. cbn [fst snd] in R1. destruct (read_exact 8 (dropN p data)) as [[y q]|] eqn:Q; cbn [or_io bind] in R1; [|discriminate]. injection R1 as <- <-. apply read_exact_drop in Q. tauto. }
  pose proof (C70_read_tag_total data false cover tags r) as N2. destruct (read_ape_tag data false cover tags r) as [[[t hh] r2]| |] eqn:R2; cbn [bind]; [|exact I|congruence].
  assert (T : t = None).
  { unfold read_ape_tag, rd_exact in R2. rewrite RD in R2. destruct (read_exact 8 (dropN (p + 8) data)) as [[y q]|] eqn:Q; cbn [or_io bind] in R2; [|discriminate]. apply read_exact_drop in Q as [-> _].
    destruct (list_eqb _ PREAMBLE) eqn:PR. { apply list_eqb_eq in PR. contradiction. } cbn [bind] in R2. now injection R2 as <- _ _. }
  subst t. destruct (find_id3v1 data) as [p1 f1] eqn:V1. assert (P1 : p1 <= lenN data). { unfold find_id3v1 in V1. destruct (lenN data <? 128); [injection V1; lia|]. destruct (list_eqb _ _); injection V1; lia. }
  pose proof (C35_never_recognised data p1 P1) as LY. destruct (find_lyrics3v2 data p1) as [[[l1 l2] pp]| |]; [|exact I|contradiction]. destruct LY as (_ & _ & ->). destruct (seek_back p1 32) as [s|]; [|exact I].
  pose proof (C70_read_tag_total data true cover tags (rd_at data s)) as N3. destruct (read_ape_tag data true cover tags (rd_at data s)) as [[[t2 h2] r3]| |]; cbn [bind]; [|exact I|congruence].
  destruct t2; [destruct h2 as [[size ct]|]; [destruct (N.ltb_spec p1 size); [exact I|]|]|]; repeat split; auto; lia.
Qed.
Theorem C245_ape : forall data cover tags ro items b h c p, create_ape_tag ro items = Ok b -> find_id3v2 data 0 false None = Ok (h, c, p) -> takeN 8 (dropN (p + 8) data) <> $"APETAGEX" ->
  ape_write data cover tags ro items <> Panic.
Proof.
  intros data cover tags ro items b h c p E FI NP. unfold ape_write. pose proof (find_existing_ok data cover tags h c p FI NP) as F. destruct (find_existing data cover tags) as [[[header footer] pos]| |]; cbn [bind]; [|discriminate|contradiction].
  destruct F as (-> & P & F). rewrite E. cbn [bind].
  assert (K : forall x y, x <= y -> y <= lenN data -> exists w, ApeModel.splice x y b data = Ok w).
  { intros x y X Y. unfold ApeModel.splice. replace (_ || _) with false by (symmetry; apply orb_false_iff; split; apply N.ltb_ge; lia). eauto. }
  destruct footer as [[x y]|]; [destruct (K x y) as [w ->]; try tauto; discriminate|]. destruct (K pos pos) as [w ->]; [lia|lia|discriminate].
Qed.
Print Assumptions C245_ape.

(** ** Examples and refutations *)
Definition t_riff : riff := [($"INAM", $"A")].
Definition wav_file (slen size : N) : bytes := $"RIFF" ++ le_enc 4 slen ++ $"WAVE" ++ $"data" ++ le_enc 4 2 ++ [1; 2] ++ $"LIST" ++ le_enc 4 size ++ $"INFO" ++ $"ICMT" ++ le_enc 4 2 ++ [65; 0].
Example C245_ex : (exists log, write_riff_info BestAttempt (wav_file 36 14) t_riff = Ok log) /\ (exists b, create_riff_info t_riff = Ok b) /\ info_at (wav_file 36 14) 22 14.
Proof. split; [eexists; vm_compute; reflexivity|]. split; [eexists; vm_compute; reflexivity|]. repeat split; vm_compute; (reflexivity || discriminate). Qed.
Example C245_aiff_ex : let t := mkAt (Some ($"N")) None None None None in (exists b, create_text_chunks t = Ok b) /\
  let data := $"FORM" ++ be_enc 4 32 ++ $"AIFF" ++ $"COMM" ++ be_enc 4 2 ++ [1; 2] ++ $"AUTH" ++ be_enc 4 10 ++ [65; 66] in
  (exists log, write_aiff_text BestAttempt data t = Ok log) /\ write_aiff_text Strict data t = Ok (rewrite_all ($"FORM" ++ be_enc 4 24 ++ $"AIFF" ++ $"COMM" ++ be_enc 4 2 ++ [1; 2] ++ $"NAME" ++ be_enc 4 1 ++ [78; 0])).
Proof. split; [eexists; vm_compute; reflexivity|]. split; [eexists; vm_compute; reflexivity|vm_compute; reflexivity]. Qed.
(** A size field smaller than 4; an INFO list that claims to be larger than the file. *)
Theorem C245_riff_refuted : (exists b, create_riff_info t_riff = Ok b) /\ write_riff_info BestAttempt (wav_file 3 14) t_riff = Panic /\ write_riff_info BestAttempt (wav_file 36 18) t_riff = Panic.
Proof. split; [eexists; vm_compute; reflexivity|]. split; vm_compute; reflexivity. Qed.
Print Assumptions C245_riff_refuted.
(** A smaller ID3v2 chunk at the end of a WAV file. *)
Theorem C245_chunk_refuted : exists data b, create_tag (mkW false false false (Some 20)) DumpThm.PLAIN DumpThm.frames_ex = Ok b /\
  save_id3_chunk false BestAttempt false (mkW false false false (Some 20)) DumpThm.PLAIN DumpThm.frames_ex data = Panic.
Proof. exists (IffSpec.iff_file false ($"RIFF") ($"WAVE") [($"data", [1; 2]); ($"id3 ", [1; 2])]). eexists. split; vm_compute; reflexivity. Qed.
Print Assumptions C245_chunk_refuted.
(** An APE tag 8 bytes after the start of the file. *)
Theorem C245_ape_refuted : exists data b, create_ape_tag false [] = Ok b /\ ape_write data true true false [] = Panic.
Proof. exists (repeat 7 8 ++ ApeThm2.dumped (ApeThm2.one ($"Title") ($"Old title"))). eexists. split; vm_compute; reflexivity. Qed.
Print Assumptions C245_ape_refuted.
(** MP4: the preferred padding is smaller than the header of an atom. *)
Theorem C245_mp4_refuted : exists data tag b, Mp4WriteModel.build_ilst tag = Ok b /\ Mp4WriteModel.mp4_write data tag Strict (Some 7) = Panic /\ exists log, Mp4WriteModel.mp4_write data tag Strict (Some 8) = Ok log.
Proof.
  exists (Mp4Spec.encs (Mp4Ex.file_ex [219] ($"abc") [])), [Mp4Ex.nam ($"a")]. eexists. split; [vm_compute; reflexivity|]. split; [vm_compute; reflexivity|]. eexists. vm_compute. reflexivity.
Qed.
Print Assumptions C245_mp4_refuted.
