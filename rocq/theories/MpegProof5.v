(** The last frame; reading ends without a panic. *)
From Verif Require Import BaseLemmas StrLemmas Id3v2HeaderProof Id3v2HeaderThm ApeThm2 ApeProof2 TextProof Id3v1Thm FrameTotalThm.
From Verif Require Import Id3v1Model ApeModel FrameReadModel MathModel Id3v2HeaderModel.
From Verif Require Export MpegProof4.

(** ** The last frame *)
(** Nothing in the frame after its first byte looks like a header. *)
Definition quiet (z : fields * bytes) : Prop := forall p f q, MpegSpec.frame_bytes z = p ++ be_enc 4 (word f) ++ q -> valid f -> p = [].
Lemma head_frame : forall pre f rest, valid f -> head_at (pre ++ be_enc 4 (word f) ++ rest) (lenN pre) (header_of f).
Proof.
  intros pre f rest V. destruct (word_bytes f V) as (b & c & d & E & S & _ & _ & _ & D). rewrite E. exists 255, b, c, d, rest. rewrite dropN_app by reflexivity. split; [reflexivity|].
  split; [auto|]. rewrite D. now apply decode.
Qed.
Lemma last_in : forall pre z post first, frame_ok z -> regular (fst z) -> bytes_ok (snd z) -> quiet z -> same_kind (fst z) first ->
  let data := pre ++ MpegSpec.frame_bytes z ++ post in let pos := lenN (pre ++ MpegSpec.frame_bytes z) in
  last_frame (S (N.to_nat pos)) data (header_of first) pos = Ok (Some (lenN pre, header_of (fst z))).
Proof.
  intros pre z post first OZ RZ BZ Q K data pos. pose proof (frame_len_ok z OZ RZ) as LZ. pose proof (lengths_mod (fst z) (proj1 OZ)) as (L1 & L2).
  assert (P : pos = lenN pre + code_length (fst z)) by (unfold pos; rewrite lenN_app; lia).
  apply last_found.
  - unfold data, pos. rewrite !lenN_app. lia.
  - unfold data, MpegSpec.frame_bytes. rewrite <- app_assoc. apply head_frame, OZ.
  - now apply cmp_kind.
  - intros q h' Q1 Q2 (a & b & c & d & rest & D & V & H).
    unfold data in D. rewrite app_assoc in D. rewrite dropN_app_le in D by (unfold pos in Q2; lia).
    assert (DQ : dropN q (pre ++ MpegSpec.frame_bytes z) = dropN (q - lenN pre) (MpegSpec.frame_bytes z)).
    { replace q with (lenN pre + (q - lenN pre)) at 1 by lia. rewrite <- dropN_dropN. now rewrite dropN_app. }
    set (k := q - lenN pre) in *. assert (LK : 4 <= lenN (dropN k (MpegSpec.frame_bytes z))) by (rewrite lenN_dropN; unfold k; lia).
    rewrite DQ in D. remember (dropN k (MpegSpec.frame_bytes z)) as u. destruct u as [|a' [|b' [|c' [|d' u]]]]; rewrite ?lenN_cons, ?lenN_nil in LK; try lia.
    cbn [app] in D. injection D as -> -> -> -> D.
    assert (OK : bytes_ok [a; b; c; d]).
    { assert (OF : bytes_ok (MpegSpec.frame_bytes z)) by (apply Forall_app; split; [apply be_enc_ok|auto]).
      rewrite <- (takeN_dropN _ k) in OF. apply Forall_app in OF as [_ OF]. rewrite <- Hequ in OF. rewrite !Forall_cons_iff in OF. destruct OF as (? & ? & ? & ? & _). repeat constructor; auto. }
    assert (OK' := OK). rewrite !Forall_cons_iff in OK'. destruct OK' as (Ba & Bb & Bc & Bd & _).
    destruct (accepted (be_dec [a; b; c; d]) h' (sync_word a b c d Ba Bb Bc Bd V) H) as (f & Vf & W & _).
    assert (E : MpegSpec.frame_bytes z = takeN k (MpegSpec.frame_bytes z) ++ be_enc 4 (word f) ++ u).
    { rewrite W. change 4%nat with (length [a; b; c; d]). rewrite be_enc_dec by auto. cbn [app]. rewrite Hequ. symmetry. apply takeN_dropN. }
    specialize (Q _ _ _ E Vf).
    pose proof (f_equal (@lenN N) Q) as X. rewrite lenN_takeN, lenN_nil in X. unfold k in X. lia.
  - lia.
  - replace (pos - lenN pre) with (code_length (fst z)) by lia. exact L2.
  - lia.
Qed.

(** ** No panic *)
Lemma search_range : forall r i, search_for_frame_sync r = Some i -> i + 2 <= lenN r.
Proof.
  assert (G : forall r a k i, sync_scan a r k = Some i -> k <= i /\ i + 1 <= k + lenN r).
  { induction r as [|b r IH]; intros a k i H; cbn [sync_scan] in H; [discriminate|]. rewrite lenN_cons. destruct (verify_frame_sync a b). { injection H as <-. lia. } apply IH in H. lia. }
  intros [|a r] i H; cbn [search_for_frame_sync] in H; [discriminate|]. apply G in H. rewrite lenN_cons. lia.
Qed.
Lemma ok_drop : forall n (l : bytes), bytes_ok l -> bytes_ok (dropN n l).
Proof. intros n l H. rewrite <- (takeN_dropN _ n l) in H. now apply Forall_app in H as [_ H]. Qed.
Lemma ok_take : forall n (l : bytes), bytes_ok l -> bytes_ok (takeN n l).
Proof. intros n l H. rewrite <- (takeN_dropN _ n l) in H. now apply Forall_app in H as [H _]. Qed.
Lemma found_word : forall data pos rel w rest h, bytes_ok data -> search_for_frame_sync (dropN pos data) = Some rel -> read_be 4 (dropN (pos + rel) data) = Some (w, rest) -> header_read w = Some h ->
  exists f, valid f /\ word f = w /\ h = header_of f.
Proof.
  intros data pos rel w rest h OK S R H. pose proof (search_spec (dropN pos data) (ok_drop _ _ OK)) as SS. rewrite S in SS. destruct SS as [(a & b & t & D & -> & B) _]. rewrite dropN_dropN in D.
  pose proof (ok_drop (pos + rel) data OK) as OD. rewrite D in *. unfold read_be, read_exact in R. destruct t as [|c [|d t]]; [discriminate R|discriminate R|].
  rewrite !lenN_cons in R. replace (4 <=? _) with true in R by (symmetry; apply N.leb_le; lia). injection R as R _. change (takeN 4 (255 :: b :: c :: d :: t)) with [255; b; c; d] in R.
  rewrite !Forall_cons_iff in OD. destruct OD as (_ & Bb & Bc & Bd & _). apply accepted; auto. rewrite <- R. apply sync_word; auto. { unfold byte_ok. lia. } apply verify_iff; auto.
Qed.
Lemma find_next_total : forall data, bytes_ok data -> forall fuel pos, lenN data - pos < N.of_nat fuel ->
  find_next_frame fuel data pos <> Panic /\ forall h s, find_next_frame fuel data pos = Ok (Some (h, s)) -> pos <= s < lenN data /\ exists f, valid f /\ h = header_of f.
Proof.
  intros data OK. induction fuel as [|fuel IH]; intros pos F; [lia|]. cbn [find_next_frame].
  destruct (search_for_frame_sync (dropN pos data)) as [rel|] eqn:S; [|split; [discriminate|intros; discriminate]]. assert (S' := S). apply search_range in S'. rewrite lenN_dropN in S'.
  destruct (read_be 4 (dropN (pos + rel) data)) as [[w ?]|] eqn:RB; [|split; [discriminate|intros; discriminate]].
  destruct (header_read w) as [h|] eqn:H.
  - destruct (cmp_header data (pos + rel + 4) 4 (m_len h) w HEADER_MASK) as [[| |] p] eqn:C; [split; [discriminate|]|split; [discriminate|intros; discriminate]|].
    { intros h' s E. injection E as <- <-. split; [lia|]. destruct (found_word _ _ _ _ _ _ OK S RB H) as (f & V & _ & E). eauto. }
    unfold cmp_header in C. match type of C with context [read_be 4 ?r] => destruct (read_be 4 r) as [[? ?]|] end; [|discriminate]. injection C as _ C. specialize (IH p). destruct IH as [I1 I2]; [lia|]. split; [auto|]. intros h' s E. apply I2 in E. split; [lia|tauto].
  - specialize (IH (pos + rel + 4)). destruct IH as [I1 I2]; [lia|]. split; [auto|]. intros h' s E. apply I2 in E. split; [lia|tauto].
Qed.
Lemma rev_scan_range : forall bs bounds i s0 buf p h, bytes_ok buf -> bytes_ok bs -> s0 < 256 -> rev_scan bounds i s0 bs buf = Some (p, h) -> p <= bounds - 1 /\ m_len h < 5000.
Proof.
  induction bs as [|b bs IH]; intros bounds i s0 buf p h OB OK S H; cbn [rev_scan] in H; [discriminate|]. apply Forall_cons_iff in OK as [B OK]. specialize (IH bounds (i + 1) b buf).
  destruct (verify_frame_sync b s0) eqn:V; [|apply IH; auto]. destruct (lenN buf <? _); [apply IH; auto|].
  match type of H with context [header_read ?w] => destruct (header_read w) as [h'|] eqn:E end; [|apply IH; auto]. injection H as <- <-. split; [lia|].
  assert (NB : forall k, nth k buf 0 < 256). { intros k. destruct (Nat.lt_ge_cases k (length buf)). - apply (proj1 (Forall_forall _ _) OB), nth_In; auto. - rewrite nth_overflow by auto. lia. }
  destruct (accepted _ _ (sync_word b s0 _ _ B S (NB _) (NB _) V) E) as (f & Vf & _ & ->). pose proof (lengths_mod f Vf). cbn [m_len header_of]. lia.
Qed.
Lemma last_total : forall fuel data first pos, bytes_ok data -> pos < N.of_nat fuel ->
  last_frame fuel data first pos <> Panic /\ (forall e, last_frame fuel data first pos <> Err e) /\ forall p h, last_frame fuel data first pos = Ok (Some (p, h)) -> p < pos /\ m_len h < 5000.
Proof.
  induction fuel as [|fuel IH]; intros data first pos OK F; [lia|]. cbn [last_frame]. destruct (N.eqb_spec pos 0) as [|NZ]; [repeat split; discriminate|].
  unfold rev_search. change REV_FRAME_SEARCH_BOUNDS with 1024. set (w := N.min pos 1024). set (buf := takeN w (dropN (pos - w) data)).
  assert (OB : bytes_ok buf). { unfold buf. apply Forall_forall. intros x X. apply (proj1 (Forall_forall _ _) OK). unfold takeN, dropN in X. rewrite <- (firstn_skipn (N.to_nat (pos - w)) data). apply in_or_app. right. rewrite <- (firstn_skipn (N.to_nat w) (skipn _ data)). apply in_or_app. auto. }
  destruct (rev_scan w 0 0 (rev buf) buf) as [[p h]|] eqn:R.
  - apply rev_scan_range in R; [|auto|now apply Forall_rev|lia]. assert (LW : pos - w + p < pos) by lia. destruct (header_cmp h first).
    + split; [discriminate|]. split; [discriminate|]. intros p' h' E. injection E as <- <-. lia.
    + destruct (IH data first (pos - w + p) OK ltac:(lia)) as (I1 & I2 & I3). split; [auto|]. split; [auto|]. intros p' h' E. apply I3 in E. lia.
  - destruct (IH data first (pos - w) OK ltac:(lia)) as (I1 & I2 & I3). split; [auto|]. split; [auto|]. intros p' h' E. apply I3 in E. lia.
Qed.
(** Positions of the APE reader *)
Definition at_pos (data : bytes) (r : rd) : Prop := snd r = dropN (fst r) data.
Lemma at_exact : forall data n r b r', at_pos data r -> 0 < n -> rd_exact n r = Ok (b, r') -> at_pos data r' /\ fst r' = fst r + n /\ fst r' <= lenN data.
Proof.
  intros data n r b r' A Z H. unfold rd_exact in H. destruct (read_exact n (snd r)) as [[x y]|] eqn:E; [|discriminate]. cbn [or_io bind] in H. injection H as <- <-. unfold at_pos in *. cbn [fst snd].
  rewrite A in E. unfold read_exact in E. rewrite lenN_dropN in E. destruct (N.leb_spec n (lenN data - fst r)); [|discriminate]. injection E as <- <-. rewrite dropN_dropN. split; [reflexivity|]. lia.
Qed.
Lemma at_le4 : forall data r v r', at_pos data r -> bytes_ok data -> rd_le4 r = Ok (v, r') -> at_pos data r' /\ fst r' = fst r + 4 /\ fst r' <= lenN data /\ v < 2 ^ 32.
Proof.
  intros data r v r' A OK H. unfold rd_le4, read_le in H. destruct (read_exact 4 (snd r)) as [[x y]|] eqn:E; [|discriminate]. cbn [or_io bind] in H. injection H as <- <-. unfold at_pos in *. cbn [fst snd].
  rewrite A in E. unfold read_exact in E. rewrite lenN_dropN in E. destruct (N.leb_spec 4 (lenN data - fst r)); [|discriminate]. injection E as <- <-. rewrite dropN_dropN. split; [reflexivity|]. split; [reflexivity|]. split; [lia|].
  set (l := takeN 4 (dropN (fst r) data)). assert (L4 : lenN l <= 4) by (unfold l; rewrite lenN_takeN; lia).
  assert (OL : bytes_ok l). { unfold l. apply Forall_forall. intros x X. apply (proj1 (Forall_forall _ _) OK). rewrite <- (takeN_dropN _ (fst r) data). apply in_or_app. right. rewrite <- (takeN_dropN _ 4). apply in_or_app. auto. }
  pose proof (le_dec_bound l OL) as B. apply N.lt_le_trans with (256 ^ lenN l); [exact B|]. change (2 ^ 32) with (256 ^ 4). apply N.pow_le_mono_r; lia.
Qed.
Lemma at_key : forall data r k r', at_pos data r -> rd_key r = Ok (k, r') -> at_pos data r' /\ fst r < fst r' <= lenN data.
Proof.
  intros data r k r' A H. unfold rd_key in H. destruct (key_bytes (snd r)) as [[x y]|] eqn:E; [|discriminate]. cbn [or_io bind] in H. injection H as <- <-. unfold at_pos in *. cbn [fst snd].
  assert (G : forall l x y, key_bytes l = Some (x, y) -> l = x ++ 0 :: y).
  { induction l as [|c l IH]; intros x' y' K; cbn [key_bytes] in K; [discriminate|]. destruct (N.eqb_spec c 0) as [->|]. { injection K as <- <-. reflexivity. }
    destruct (key_bytes l) as [[u v]|]; [|discriminate]. injection K as <- <-. cbn [app]. f_equal. now apply IH. }
  apply G in E. rewrite A in E. pose proof (f_equal (@lenN N) E) as L. rewrite lenN_dropN, lenN_app, lenN_cons in L. split; [|lia].
  replace (fst r + lenN x + 1) with (fst r + (lenN x + 1)) by lia. rewrite <- dropN_dropN, E. change (x ++ 0 :: y) with (x ++ [0] ++ y). rewrite app_assoc, dropN_app; [reflexivity|]. rewrite lenN_app. reflexivity.
Qed.
Lemma at_skip : forall data n r, at_pos data r -> at_pos data (rd_skip n r).
Proof. intros data n r A. unfold at_pos, rd_skip in *. cbn [fst snd]. rewrite A. apply dropN_dropN. Qed.
Ltac step H a r E := match type of H with bind ?x _ = _ => destruct x as [[a r]| |] eqn:E; cbn [bind] in H; [|discriminate H|discriminate H] end.
Lemma items_range : forall data, bytes_ok data -> forall fuel count rem cover t r t' r', at_pos data r -> fst r <= lenN data + 2 ^ 32 -> read_items fuel count rem cover t r = Ok (t', r') ->
  at_pos data r' /\ fst r <= fst r' <= lenN data + 2 ^ 32.
Proof.
  intros data OK. induction fuel as [|fuel IH]; intros count rem cover t r t' r' A B H; cbn [read_items] in H; [discriminate|].
  destruct (count =? 0). { injection H as <- <-. split; [auto|lia]. } destruct (rem <? 11). { injection H as <- <-. split; [auto|lia]. }
  step H size r1 E1. destruct (at_le4 _ _ _ _ A OK E1) as (A1 & F1 & B1 & S1). destruct (rem <? size); [discriminate|].
  step H fl r2 E2. destruct (at_le4 _ _ _ _ A1 OK E2) as (A2 & F2 & B2 & _).
  step H kb r3 E3. destruct (at_key _ _ _ _ A2 E3) as (A3 & F3).
  destruct (dec_text kb) as [key| |]; cbn [bind] in H; try discriminate H. destruct (_ && _).
  - apply IH in H; [|now apply at_skip|unfold rd_skip; cbn [fst]; lia]. unfold rd_skip in H. cbn [fst] in H. split; [tauto|lia].
  - step H i r4 E4.
    assert (R4 : at_pos data r4 /\ fst r3 <= fst r4 <= lenN data).
    { unfold parse_item in E4. cbv zeta in E4. step E4 v r5 E5.
      assert (X : at_pos data r5 /\ fst r3 <= fst r5 <= lenN data).
      { destruct (N.eq_dec size 0) as [->|NZ]. - unfold rd_exact, read_exact in E5. destruct (0 <=? _); [|discriminate]. cbn [or_io bind] in E5. injection E5 as _ <-. unfold at_pos in *. cbn [fst snd]. rewrite N.add_0_r. rewrite A3. split; [apply dropN_0|lia].
        - assert (Z : 0 < size) by lia. destruct (at_exact _ _ _ _ _ A3 Z E5) as (X1 & X2 & X3). split; [auto|lia]. }
      match type of E4 with bind ?x _ = _ => destruct x; cbn [bind] in E4; try discriminate E4 end.
      match type of E4 with bind ?x _ = _ => destruct x; cbn [bind] in E4; try discriminate E4 end. injection E4 as _ <-. exact X. }
    apply IH in H; [|tauto|lia]. split; [tauto|lia].
Qed.
Lemma header_range : forall data r size count r', bytes_ok data -> at_pos data r -> read_ape_header data false r = Ok (size, count, r') ->
  at_pos data r' /\ fst r < fst r' <= lenN data + 2 ^ 32.
Proof.
  intros data r size count r' OK A H. unfold read_ape_header in H. step H v r1 E1. step H s r2 E2. destruct (s <? 32); [discriminate|]. step H c r3 E3. cbn [bind] in H.
  destruct (at_le4 _ _ _ _ A OK E1) as (A1 & F1 & B1 & _). destruct (at_le4 _ _ _ _ A1 OK E2) as (A2 & F2 & B2 & _). destruct (at_le4 _ _ _ _ A2 OK E3) as (A3 & F3 & B3 & _).
  cbv zeta in H. destruct (_ <? _); [discriminate|]. injection H as <- <- <-. split; [now apply at_skip|]. unfold rd_skip. cbn [fst]. lia.
Qed.
Lemma header_range_footer : forall data r size count r', bytes_ok data -> at_pos data r -> read_ape_header data true r = Ok (size, count, r') ->
  at_pos data r' /\ fst r' <= lenN data.
Proof.
  intros data r size count r' OK A H. unfold read_ape_header in H. step H v r1 E1. step H s r2 E2. destruct (s <? 32); [discriminate|]. step H c r3 E3.
  destruct (at_le4 _ _ _ _ A OK E1) as (A1 & F1 & B1 & _). destruct (at_le4 _ _ _ _ A1 OK E2) as (A2 & F2 & B2 & _). destruct (at_le4 _ _ _ _ A2 OK E3) as (A3 & F3 & B3 & _).
  unfold seek_back in H. destruct (fst r3 <? s - 12); cbn [bind] in H; [discriminate|]. cbv zeta in H. destruct (_ <? _); [discriminate|]. injection H as <- <- <-. split; [reflexivity|]. unfold rd_at. cbn [fst]. lia.
Qed.
Lemma with_header_range : forall data size count cover r t r', bytes_ok data -> at_pos data r -> fst r <= lenN data + 2 ^ 32 -> read_with_header size count cover r = Ok (t, r') ->
  at_pos data r' /\ fst r <= fst r' <= lenN data + 2 ^ 33.
Proof.
  intros data size count cover r t r' OK A B H. unfold read_with_header in H. step H t1 r1 E. injection H as <- <-. destruct (items_range data OK _ _ _ _ _ _ _ _ A B E) as (A1 & B1).
  split; [now apply at_skip|]. unfold rd_skip. cbn [fst]. lia.
Qed.
Lemma with_header_np : forall size count cover r, read_with_header size count cover r <> Panic.
Proof. intros. unfold read_with_header. apply bind_np. apply read_items_np. intros [t r3] _. discriminate. Qed.
Lemma read_tag_range : forall data cover tags s t h r, bytes_ok data -> s <= lenN data -> read_ape_tag data true cover tags (rd_at data s) = Ok (t, h, r) -> fst r <= lenN data + 2 ^ 33.
Proof.
  intros data cover tags s t h r OK S H. unfold read_ape_tag in H. step H p r1 E1. destruct (at_exact data 8 (rd_at data s) p r1 eq_refl ltac:(lia) E1) as (A1 & F1 & B1).
  destruct (list_eqb p PREAMBLE). 2:{ injection H as _ _ <-. lia. } step H sc r2 E2. destruct sc as [size count]. destruct (header_range_footer _ _ _ _ _ OK A1 E2) as (A2 & B2). destruct tags.
  - step H t1 r3 E3. injection H as _ _ <-. destruct (with_header_range data _ _ _ _ _ _ OK A2 ltac:(lia) E3) as (_ & B3). lia.
  - injection H as _ _ <-. lia.
Qed.
Lemma tag_res_np : forall E A (r : res E A), r <> Panic -> tag_res r <> Panic.
Proof. intros E A [x|e|] H; cbn [tag_res]; congruence. Qed.
Lemma find_junk_total : forall data start read w, find_id3v2 data start read (Some w) <> Panic.
Proof.
  intros. unfold find_id3v2. pose proof (C54_junk_search (takeN w (dropN start data))) as J.
  destruct (find_id3v2_in_junk (takeN w (dropN start data))) as [[[off rest]|]| |]; cbn [bind]; try contradiction; [|discriminate].
  set (pos := start + _ - _ - _). pose proof (header_total (dropN pos data)) as HT.
  destruct (header_parse (dropN pos data)) as [[h|e|] r]; cbn [fst] in HT; [|destruct (seek_back _ _); discriminate|contradiction].
  destruct read; cbn [bind]; [|discriminate]. destruct (read_exact (h_size h) r) as [[? ?]|]; cbn [bind]; discriminate.
Qed.
Section Total.
Variable inflate : bytes -> option bytes.
Hypothesis I : forall b c, inflate b = Some c -> lenN c <= lenN b.
Lemma lead_total : forall o data, bytes_ok data -> forall fuel v2 ape pos, (0 < fuel)%nat -> lenN data - pos < N.of_nat fuel ->
  lead inflate fuel data o v2 ape pos <> Panic /\ forall v2' ape' h s, lead inflate fuel data o v2 ape pos = Ok (v2', ape', Some (h, s)) -> s < lenN data /\ exists f, valid f /\ h = header_of f.
Proof.
  intros o data OK. induction fuel as [|fuel IH]; intros v2 ape pos F0 F; [lia|]. cbn [lead].
  destruct (read_exact 4 (dropN pos data)) as [[four r]|] eqn:R; [|split; [discriminate|intros; discriminate]].
  assert (LP : pos + 4 <= lenN data). { unfold read_exact in R. rewrite lenN_dropN in R. destruct (N.leb_spec 4 (lenN data - pos)); [lia|discriminate]. } clear R.
  assert (GO : forall v2 ape p, pos < p -> lead inflate fuel data o v2 ape p <> Panic /\ forall v2' ape' h s, lead inflate fuel data o v2 ape p = Ok (v2', ape', Some (h, s)) -> s < lenN data /\ exists f, valid f /\ h = header_of f).
  { intros v2' ape' p P. apply IH; lia. }
  destruct (list_eqb (takeN 3 four) ($"ID3")).
  - pose proof (header_left (dropN pos data)) as HL. pose proof (header_total (dropN pos data)) as HT. destruct (header_parse (dropN pos data)) as [[h|e|] rest]; cbn [fst] in HT; [|split; [discriminate|intros; discriminate]|contradiction].
    cbn [tag_res bind]. destruct HL as [_ HL]. specialize (HL h eq_refl). rewrite lenN_dropN in HL. destruct (mo_tags o).
    + pose proof (C143_total inflate h (mo_frames o) rest I) as PT. destruct (parse_id3v2 inflate h (mo_frames o) rest) as [[t rest']| |] eqn:PE; [|split; [discriminate|intros; discriminate]|contradiction].
      cbn [tag_res bind]. assert (LR : lenN rest' <= lenN rest). { unfold parse_id3v2 in PE. cbv zeta in PE. destruct (read_all _ _ _ _ _ _ _) as [[? ?]| |]; cbn [bind] in PE; try discriminate. injection PE as _ <-. rewrite lenN_dropN. lia. }
      destruct v2; apply GO; lia.
    + apply GO. lia.
  - destruct (list_eqb four ($"APET")).
    + destruct (read_exact 4 (dropN (pos + 4) data)) as [[more ?]|]; [|split; [discriminate|intros; discriminate]]. destruct (list_eqb more _); [|split; [discriminate|intros; discriminate]].
      pose proof (read_header_np data false (rd_at data (pos + 8))) as HN. destruct (read_ape_header data false (rd_at data (pos + 8))) as [[[size count] r1]| |] eqn:E; [|split; [discriminate|intros; discriminate]|contradiction].
      destruct (header_range data _ _ _ _ OK (eq_refl : at_pos data (rd_at data (pos + 8))) E) as (A1 & B1). unfold rd_at in B1. cbn [fst] in B1. cbn [tag_res bind]. destruct (mo_tags o).
      * pose proof (with_header_np size count (fo_cover (mo_frames o)) r1) as WN. destruct (read_with_header size count (fo_cover (mo_frames o)) r1) as [[t r2]| |] eqn:E2; [|split; [discriminate|intros; discriminate]|contradiction].
        destruct (with_header_range data _ _ _ _ _ _ OK A1 ltac:(lia) E2) as (A2 & B2). cbn [tag_res bind]. apply GO. lia.
      * apply GO. lia.
    + destruct (find_next_total data OK (S (length data)) pos) as [N1 N2]. { unfold lenN. lia. }
      destruct (find_next_frame (S (length data)) data pos) as [[[h s]|]| |]; cbn [bind]; [|split; [discriminate|intros; discriminate]|split; [discriminate|intros; discriminate]|contradiction].
      specialize (N2 h s eq_refl).
      assert (DONE : forall a b, Ok (a, b, Some (h, s)) <> @Panic mpeg_error (option id3v2_tag * option ape_tag * option (mheader * N)) /\
        forall v2' ape' h' s', @Ok mpeg_error (option id3v2_tag * option ape_tag * option (mheader * N)) (a, b, Some (h, s)) = Ok (v2', ape', Some (h', s')) -> s' < lenN data /\ exists f, valid f /\ h' = header_of f).
      { intros a b. split; [discriminate|]. intros v2' ape' h' s' E. injection E as _ _ <- <-. split; [lia|tauto]. }
      destruct v2; [apply DONE|]. destruct (_ && _); [|apply DONE].
      pose proof (find_junk_total data 0 (mo_tags o) (N.min s (mo_junk o))) as FJ. destruct (find_id3v2 data 0 (mo_tags o) (Some (N.min s (mo_junk o)))) as [[[hd c] p]| |]; [|split; [discriminate|intros; discriminate]|contradiction].
      cbn [tag_res bind]. destruct hd as [hd|]; [|apply DONE]. destruct c as [c|]; [|apply DONE].
      pose proof (C143_total inflate hd (mo_frames o) c I) as PT. destruct (parse_id3v2 inflate hd (mo_frames o) c) as [[t ?]| |]; [|split; [discriminate|intros; discriminate]|contradiction]. cbn [tag_res bind]. apply DONE.
Qed.
End Total.
Lemma tail_total : forall data o ape, bytes_ok data -> tail data o ape <> Panic /\ forall a b p, tail data o ape = Ok (a, b, p) -> p <= lenN data + 2 ^ 33.
Proof.
  intros data o ape OK. unfold tail. destruct (find_id3v1 data) as [p1 found] eqn:F.
  assert (P1 : p1 <= lenN data /\ (found = true -> lenN (dropN p1 data) = 128)).
  { unfold find_id3v1 in F. destruct (N.ltb_spec (lenN data) 128); [injection F as <- <-; split; [lia|discriminate]|]. destruct (list_eqb _ TAG); injection F as <- <-; split; try lia; try discriminate. intros _. rewrite lenN_dropN. lia. }
  destruct P1 as [P1 P2].
  assert (V : (if found && mo_tags o then let? t := tag_res (v1_parse (dropN p1 data) (mo_strict o)) in Ok (Some t) else Ok None) <> @Panic mpeg_error (option id3v1)).
  { destruct (found && mo_tags o) eqn:FM; [|discriminate]. apply andb_true_iff in FM as [-> _]. pose proof (C47_parse_total (dropN p1 data) (mo_strict o) (P2 eq_refl)) as T.
    assert (OD : bytes_ok (dropN p1 data)). { rewrite <- (takeN_dropN _ p1 data) in OK. now apply Forall_app in OK as [_ OK]. } specialize (T OD). destruct (v1_parse _ _); cbn [tag_res bind]; try discriminate. contradiction. }
  match type of V with ?x <> _ => destruct x as [v1| |]; [|split; [discriminate|intros; discriminate]|contradiction] end. cbn [bind].
  pose proof (C35_never_recognised data p1 P1) as LY. destruct (find_lyrics3v2 data p1) as [[[lf ls] pos]| |]; [|split; [discriminate|intros; discriminate]|contradiction]. destruct LY as (_ & _ & ->). cbn [tag_res bind].
  unfold seek_back. destruct (p1 <? 32); [split; [discriminate|intros; discriminate]|].
  pose proof (C70_read_tag_total data true (fo_cover (mo_frames o)) (mo_tags o) (rd_at data (p1 - 32))) as RT.
  destruct (read_ape_tag data true (fo_cover (mo_frames o)) (mo_tags o) (rd_at data (p1 - 32))) as [[[t h] r]| |] eqn:E; [|split; [discriminate|intros; discriminate]|contradiction]. cbn [tag_res bind].
  assert (RR := E). apply read_tag_range in RR; [|auto|lia]. destruct h as [[size ?]|].
  - destruct (fst r <? size). split; [discriminate|intros; discriminate]. split; [discriminate|]. intros a b p X. injection X as _ _ <-. lia.
  - split; [discriminate|]. intros a b p X. injection X as _ _ <-.
    unfold read_ape_tag in E. step E pp r1 E1. destruct (at_exact data 8 (rd_at data (p1 - 32)) pp r1 eq_refl ltac:(lia) E1) as (_ & _ & B). destruct (list_eqb pp PREAMBLE).
    + step E sc r2 E2. destruct sc. destruct (mo_tags o). step E t2 r3 E3. discriminate E. discriminate E.
    + injection E as _ <-. change (2 ^ 33) with 8589934592. lia.
Qed.
Lemma vbr_total : forall r, vbr_read r <> Panic.
Proof.
  intros r. unfold vbr_read. destruct (read_exact 4 r) as [[h r1]|]; [|discriminate]. destruct (_ || _).
  - destruct (lenN r <? 16); [discriminate|]. destruct (read_exact 4 r1) as [[fl r2]|]; [|discriminate]. destruct (negb _); [discriminate|].
    destruct (read_be 4 r2) as [[f r3]|]; [|discriminate]. destruct (read_be 4 r3) as [[s r4]|]; discriminate.
  - destruct (list_eqb h _); [|discriminate]. destruct (lenN r <? 32); [discriminate|]. destruct (read_exact 6 r1) as [[? r2]|]; [|discriminate].
    destruct (read_be 4 r2) as [[f r3]|]; [|discriminate]. destruct (read_be 4 r3) as [[s r4]|]; discriminate.
Qed.
Lemma be4_bound : forall l, bytes_ok l -> lenN l = 4 -> be_dec l < 2 ^ 32.
Proof. intros l O L. pose proof (be_dec_bound l O) as B. rewrite L in B. exact B. Qed.
Lemma read_be_bound : forall r v r', bytes_ok r -> read_be 4 r = Some (v, r') -> v < 2 ^ 32 /\ bytes_ok r'.
Proof.
  intros r v r' O H. unfold read_be in H. destruct (read_exact 4 r) as [[b t]|] eqn:E; [|discriminate]. apply read_exact_spec in E as [-> L]. injection H as <- <-. apply Forall_app in O as [O1 O2]. split; auto. now apply be4_bound.
Qed.
Lemma vbr_bound : forall r v, bytes_ok r -> vbr_read r = Ok (Some v) -> vb_frames v < 2 ^ 32 /\ vb_size v < 2 ^ 32.
Proof.
  intros r v O H. unfold vbr_read in H. destruct (read_exact 4 r) as [[h r1]|] eqn:E; [|discriminate]. assert (O1 : bytes_ok r1). { apply read_exact_spec in E as [-> _]. now apply Forall_app in O as [_ O]. }
  destruct (_ || _).
  - destruct (lenN r <? 16); [discriminate|]. destruct (read_exact 4 r1) as [[fl r2]|] eqn:E1; [|discriminate]. assert (O2 : bytes_ok r2). { apply read_exact_spec in E1 as [-> _]. now apply Forall_app in O1 as [_ O1]. }
    destruct (negb _); [discriminate|]. destruct (read_be 4 r2) as [[f r3]|] eqn:E2; [|discriminate]. destruct (read_be_bound _ _ _ O2 E2) as [B1 O3]. destruct (read_be 4 r3) as [[s r4]|] eqn:E3; [|discriminate]. destruct (read_be_bound _ _ _ O3 E3) as [B2 _].
    injection H as <-. auto.
  - destruct (list_eqb h _); [|discriminate]. destruct (lenN r <? 32); [discriminate|]. destruct (read_exact 6 r1) as [[fl r2]|] eqn:E1; [|discriminate]. assert (O2 : bytes_ok r2). { apply read_exact_spec in E1 as [-> _]. now apply Forall_app in O1 as [_ O1]. }
    destruct (read_be 4 r2) as [[f r3]|] eqn:E2; [|discriminate]. destruct (read_be_bound _ _ _ O2 E2) as [B1 O3]. destruct (read_be 4 r3) as [[s r4]|] eqn:E3; [|discriminate]. destruct (read_be_bound _ _ _ O3 E3) as [B2 _].
    injection H as <-. auto.
Qed.
Lemma props_total : forall data f start last vbr, bytes_ok data -> lenN data < 2 ^ 59 -> valid f -> last <= lenN data + 2 ^ 33 -> (forall v, vbr = Some v -> vb_frames v < 2 ^ 32 /\ vb_size v < 2 ^ 32) ->
  read_properties data (header_of f) start last vbr (lenN data) <> Panic.
Proof.
  intros data f start last vbr OK L V LL VB.
  assert (BU : bitrate_of f <= 448).
  { destruct V as ((B1 & B2) & _). unfold bitrate_of. assert (X : In (fl_bitrate f) [1;2;3;4;5;6;7;8;9;10;11;12;13;14]) by (cbn [In]; lia).
    cbn [In] in X. repeat destruct X as [<-|X]; try contradiction; destruct (fl_version f), (fl_layer f); vm_compute; discriminate. }
  pose proof (bitrate_pos f V) as BP.
  assert (E : forall c : bool, (if m_bitrate (header_of f) =? 0 then @Ok mpeg_error mprops (make f 0 0 0) else
    let? last := last_frame (S (N.to_nat last)) data (header_of f) last in
    match last with
    | None => Ok (make f 0 0 (if c then m_bitrate (header_of f) else 0))
    | Some (pos, h) =>
        if pos + m_len h <? start then Ok (make f 0 0 (if c then m_bitrate (header_of f) else 0)) else
        let? bits := mul64 (pos + m_len h - start) 8 in
        let? length := round64 bits (m_bitrate (header_of f)) in
        Ok (make f length (if length =? 0 then 0 else u32 (N.min U64_MAX (lenN data * 8) / length)) (m_bitrate (header_of f)))
    end) <> Panic).
  { intros c. cbn [m_bitrate header_of]. destruct (N.eqb_spec (bitrate_of f) 0); [contradiction|].
    destruct (last_total (S (N.to_nat last)) data (header_of f) last OK) as (T1 & _ & T3); [lia|].
    destruct (last_frame (S (N.to_nat last)) data (header_of f) last) as [[[p h]|]| |]; cbn [bind]; try discriminate; [|contradiction].
    destruct (T3 p h eq_refl) as [P1 P2]. destruct (N.ltb_spec (p + m_len h) start); [discriminate|]. rewrite mul_ok by lia. cbn [bind]. rewrite round_ok by lia. discriminate. }
  unfold read_properties. destruct vbr as [v|]; [|exact (E false)].
  destruct ((0 <? m_rate (header_of f)) && vbr_valid v) eqn:G; [|exact (E (match vb_type v with Info => true | _ => false end))].
  apply andb_true_iff in G as [_ G]. unfold vbr_valid in G. apply andb_true_iff in G as [G1 G2]. apply N.ltb_lt in G1, G2. destruct (VB v eq_refl) as [V1 V2].
  destruct (vbr_props data f start last v (lenN data) V ltac:(lia) (conj G1 V1) (conj G2 V2)) as [DP VP]. unfold read_properties in VP.
  replace ((0 <? m_rate (header_of f)) && vbr_valid v) with true in VP.
  2:{ symmetry. pose proof (rate_pos f V). cbn [m_rate header_of]. unfold vbr_valid. rewrite !andb_true_iff, !N.ltb_lt. lia. }
  rewrite VP. discriminate.
Qed.
