(** Property theorems for the OGG pager (C05-C10, C39-C41). *)
From Verif Require Import BaseLemmas OggModel OggSpec OggCrcProof OggProof OggReadProof OggPacketsProof OggPagProof OggPagProof2 OggFinal.

(** C05: reading a written page gives it back and leaves the rest; reading then writing is byte-identical. *)
Theorem C05_page_roundtrip : forall pos p rest, fields_ok (fields p) ->
  exists p', page_read pos (as_bytes p ++ rest) = Ok (p', rest) /\
    fields p' = fields p /\ pg_start p' = pos /\ pg_end p' = pos + lenN (as_bytes p).
Proof. intros. eexists. split; [now apply page_read_ok|]. repeat split. Qed.
Print Assumptions C05_page_roundtrip.
Theorem C05_page_canonical : forall pos r p r', bytes_ok r -> page_read pos r = Ok (p, r') ->
  r = as_bytes p ++ r' /\ fields_ok (fields p) /\ pg_start p = pos /\ pg_end p = pos + lenN (as_bytes p).
Proof. exact page_read_canonical. Qed.
Print Assumptions C05_page_canonical.
Example C05_ex : let p := mkPage 0 2 7 1759377061 3 [3; 0] 99 [1; 2; 3] 0 in
  fields_ok (fields p) /\ page_read 5 (as_bytes p ++ [8; 9]) = Ok (mkPage 5 2 7 1759377061 3 [3; 0] 99 [1; 2; 3] 37, [8; 9]).
Proof. split; [unfold fields_ok; cbn; repeat split; discriminate || reflexivity|vm_compute; reflexivity]. Qed.

(** C06 *)
Theorem C06_paginate_wellformed : forall ps serial abgp flags,
  exists pages, paginate ps serial abgp flags = Ok pages /\
    concat (map pg_content pages) = concat ps /\
    Forall (fun p => 1 <= lenN (pg_segs p) <= 32 /\ sumN (pg_segs p) = lenN (pg_content p) /\ pg_serial p = serial) pages /\
    map pg_seq pages = map (fun i => N.of_nat i mod 2 ^ 32) (seq 0 (length pages)).
Proof.
  intros. destruct (paginate_facts ps serial abgp flags) as (pages & E & Ec & Esg & Esm & Esq & _).
  exists pages. repeat split; auto.
  - rewrite <- Ec. unfold content_of. now rewrite flat_map_concat_map.
  - eapply Forall_impl; [|exact Esm]. unfold small_page. tauto.
Qed.
Print Assumptions C06_paginate_wellformed.
Example C06_ex : match paginate [repeat 7 300; [1]] 5 6 0 with
  | Ok [p1; p2] => pg_segs p1 = [255; 45] /\ pg_segs p2 = [1] /\ pg_seq p2 = 1 | _ => False end.
Proof. vm_compute. auto. Qed.

(** C07: an empty packet is lost, so the full statement is false... *)
Theorem C07_packets_roundtrip_refuted : exists p out n p',
  pk_into_iter p = Ok [[1]; []; [2]] /\
  write_to p 1 0 0 = Ok (out, n) /\ packets_read out = Ok (p', []) /\
  pk_into_iter p' <> pk_into_iter p.
Proof.
  exists (mkPackets [1; 2] [1; 0; 1]). eexists _, _, _. split; [vm_compute; reflexivity|].
  split; [vm_compute; reflexivity|]. split; [vm_compute; reflexivity|]. vm_compute. discriminate.
Qed.
Print Assumptions C07_packets_roundtrip_refuted.
(** ... and exactly the empty packets are lost: everything else round-trips, before any non-OGG trailing data. *)
Theorem C07_packets_roundtrip_partial : forall p ps serial abgp flags tail e,
  pk_wf p -> bytes_ok (pk_content p) -> pk_into_iter p = Ok ps ->
  serial < 2 ^ 32 -> abgp < 2 ^ 64 -> header_read 0 tail = Err e ->
  exists out n p', write_to p serial abgp flags = Ok (out, n) /\
    packets_read (out ++ tail) = Ok (p', tail) /\
    pk_into_iter p' = Ok (filter (fun pk => match pk with [] => false | _ => true end) ps).
Proof.
  intros. rewrite pk_into_iter_spec in H1 by auto. inversion H1; subst. eapply write_read; eauto.
Qed.
Print Assumptions C07_packets_roundtrip_partial.
Example C07_ex : pk_wf (mkPackets [1; 2; 3] [2; 1]) /\ header_read 0 [] = Err PIo /\
  pk_into_iter (mkPackets [1; 2; 3] [2; 1]) = Ok [[1; 2]; [3]].
Proof. repeat split; vm_compute; reflexivity || discriminate. Qed.

(** C08: flags are exact; the granule position rule is violated for packets of exactly 8160 bytes. *)
Theorem C08_flags : forall ps serial abgp flags,
  exists pages, paginate ps serial abgp flags = Ok pages /\
    flags_ok true false (N.testbit flags 1) (N.testbit flags 2) (map (fun p => (pg_flag p, pg_segs p)) pages).
Proof.
  intros. destruct (paginate_facts ps serial abgp flags) as (pages & E & _ & _ & _ & _ & Ef & _).
  exists pages. split; auto.
  assert (T1 : N.testbit flags 1 = want flags 2).
  { unfold want. rewrite N.testbit_eqb. change 2 with (N.shiftl (N.ones 1) 1) at 3. rewrite land_mask_shift.
    change (2 ^ 1) with 2. assert (C : (flags / 2) mod 2 = 0 \/ (flags / 2) mod 2 = 1) by lia.
    destruct C as [-> | ->]; reflexivity. }
  assert (T2 : N.testbit flags 2 = want flags 4).
  { unfold want. rewrite N.testbit_eqb. change 4 with (N.shiftl (N.ones 1) 2). rewrite land_mask_shift.
    change (2 ^ 1) with 2. change (2 ^ 2) with 4. assert (C : (flags / 4) mod 2 = 0 \/ (flags / 4) mod 2 = 1) by lia.
    destruct C as [-> | ->]; reflexivity. }
  rewrite T1, T2. exact Ef.
Qed.
Print Assumptions C08_flags.
Theorem C08_granule_refuted : exists ps serial abgp flags pages p,
  paginate ps serial abgp flags = Ok pages /\ In p pages /\ ~ packet_ends_on (pg_segs p) /\ pg_abgp p = abgp /\ abgp <> 2 ^ 64 - 1.
Proof.
  exists [repeat 7 (N.to_nat 8160)], 1, 5, 0.
  assert (C : match paginate [repeat 7 (N.to_nat 8160)] 1 5 0 with
    | Ok (p :: _) => forallb (N.eqb 255) (pg_segs p) && (pg_abgp p =? 5) | _ => false end = true) by (vm_compute; reflexivity).
  destruct (paginate [repeat 7 (N.to_nat 8160)] 1 5 0) as [[|p l]| |]; try discriminate C.
  apply andb_prop in C as [Hs Ha]. apply N.eqb_eq in Ha. rewrite forallb_forall in Hs.
  exists (p :: l), p. split; [reflexivity|]. split; [now left|]. split; [|split; [exact Ha|discriminate]].
  intros (s & Hin & Hlt). apply Hs, N.eqb_eq in Hin. lia.
Qed.
Print Assumptions C08_granule_refuted.
Theorem C08_granule_partial : forall ps serial abgp flags,
  exists pages, paginate ps serial abgp flags = Ok pages /\
  forall p, In p pages ->
   (packet_ends_on (pg_segs p) -> pg_abgp p = abgp) /\
   (Forall (fun pk => pk = [] \/ lenN pk mod 8160 <> 0) ps -> ~ packet_ends_on (pg_segs p) -> pg_abgp p = 2 ^ 64 - 1).
Proof.
  intros. destruct (paginate_facts ps serial abgp flags) as (pages & E & _ & _ & _ & _ & _ & Ea).
  exists pages. split; auto. intros p Hp. destruct (Ea p Hp) as (H1 & H2 & _). auto.
Qed.
Print Assumptions C08_granule_partial.
Example C08_ex : Forall (fun pk : bytes => pk = [] \/ lenN pk mod 8160 <> 0) [[1]; []; [2; 3]].
Proof. repeat (apply Forall_cons; [(left; reflexivity) || (right; discriminate)|]). apply Forall_nil. Qed.

(** C09 *)
Theorem C09_crc_is_polynomial : forall l, bytes_ok l -> crc32 l = Some (crc_spec l).
Proof. intros. now apply crc32_spec. Qed.
Print Assumptions C09_crc_is_polynomial.
Theorem C09_crc_detects_bursts : forall pre w1 w2 post,
  bytes_ok (pre ++ w1 ++ post) -> bytes_ok (pre ++ w2 ++ post) ->
  length w1 = length w2 -> lenN w1 <= 4 -> w1 <> w2 ->
  crc32 (pre ++ w1 ++ post) <> crc32 (pre ++ w2 ++ post).
Proof. exact crc_burst. Qed.
Print Assumptions C09_crc_detects_bursts.
Example C09_ex : crc32 [79; 103; 103; 83] = Some 0x5FB0A94F /\ crc32 [1; 2; 3; 4; 5; 6] <> crc32 [1; 9; 8; 7; 6; 6].
Proof. split; [vm_compute; reflexivity|vm_compute; discriminate]. Qed.
(** The checksum written into each page is the CRC of the page with a zeroed checksum field. *)
Theorem C09_written_checksums : forall p serial abgp flags, pk_wf p -> bytes_ok (pk_content p) ->
  serial < 2 ^ 32 -> abgp < 2 ^ 64 ->
  exists pages, write_to p serial abgp flags = Ok (concat (map as_bytes pages), lenN pages) /\
    Forall (fun q => fields_ok (fields q) /\ pg_cksum q = crc_spec (as_bytes (set_cksum 0 q))) pages.
Proof.
  intros. destruct (write_to_spec p serial abgp flags H H0 H1 H2) as (pages & E & Ew & Hok).
  exists (map crc_page pages). split.
  - rewrite Ew. unfold bytes_of. rewrite flat_map_concat_map. do 2 f_equal. unfold lenN. now rewrite map_length.
  - rewrite Forall_forall in *. intros q Hq. split. now apply Hok.
    apply in_map_iff in Hq as (q0 & <- & _). reflexivity.
Qed.
Print Assumptions C09_written_checksums.

(** C10 *)
Theorem C10_set_get : forall p i c, pk_wf p ->
  pk_get p (N.of_nat i) = Ok (nth_error (pk_abs p) i) /\
  match nth_error (pk_abs p) i with
  | None => pk_set p (N.of_nat i) c = Ok (false, p)
  | Some _ => exists p', pk_set p (N.of_nat i) c = Ok (true, p') /\ pk_wf p' /\
       pk_abs p' = firstn i (pk_abs p) ++ c :: skipn (S i) (pk_abs p)
  end.
Proof.
  intros. split; [now apply pk_get_spec|]. pose proof (pk_set_spec p i c H).
  destruct (nth_error (pk_abs p) i) eqn:E; auto. destruct H0 as (p' & E1 & E2 & E3 & _).
  exists p'. repeat split; auto. rewrite E3. clear -E. match type of E with _ = Some ?x => revert x E end. generalize (pk_abs p). induction i as [|i IHi]; destruct l; cbn; intros; try discriminate; auto.
  f_equal. eapply IHi; eauto.
Qed.
Print Assumptions C10_set_get.
(** After any history of sets, get/iterate/len agree with the list that had the same updates. *)
Theorem C10_histories : forall ops p i, pk_wf p ->
  exists p', run_sets p ops = Ok p' /\
    pk_get p' (N.of_nat i) = Ok (nth_error (fold_left (fun l op => update_nth (fst op) (snd op) l) ops (pk_abs p)) i) /\
    pk_into_iter p' = Ok (fold_left (fun l op => update_nth (fst op) (snd op) l) ops (pk_abs p)) /\
    pk_len p' = lenN (pk_abs p).
Proof. exact get_after_sets. Qed.
Print Assumptions C10_histories.
Example C10_ex : pk_wf (mkPackets [1; 2; 3; 4] [2; 1]) /\ pk_abs (mkPackets [1; 2; 3; 4] [2; 1]) = [[1; 2]; [3]] /\
  pk_set (mkPackets [1; 2; 3; 4] [2; 1]) 0 [9; 9; 9] = Ok (true, mkPackets [9; 9; 9; 3; 4] [3; 1]).
Proof. repeat split; vm_compute; reflexivity || discriminate. Qed.

(** C39: Packets::read splits any sequence of pages as the lacing values say, whatever the paging. *)
Theorem C39_read_follows_lacing : forall ps tail e,
  Forall (fun p => fields_ok (fields p)) ps -> header_read 0 tail = Err e ->
  exists p, packets_read (concat (map as_bytes ps) ++ tail) = Ok (p, tail) /\
    pk_into_iter p = Ok (cut_sizes (fst (delace 0 (concat (map pg_segs ps)))) (concat (map pg_content ps))).
Proof.
  intros. eexists. split.
  - rewrite <- flat_map_concat_map. eapply packets_read_spec; eauto.
  - rewrite pk_into_iter_spec.
    + unfold pk_abs, segs_of, content_of. cbn [pk_sizes pk_content]. now rewrite !flat_map_concat_map.
    + unfold pk_wf; cbn [pk_sizes pk_content]. pose proof (delace_sum (segs_of ps) 0). rewrite content_sum in H1 by auto. lia.
Qed.
Print Assumptions C39_read_follows_lacing.
Example C39_ex : (* one packet of 256 bytes spread over two pages, then one of 1 byte *)
  let p1 := mkPage 0 0 0 1 0 [255] 0 (repeat 7 255) 0 in
  let p2 := mkPage 0 1 0 1 1 [1; 1] 0 [8; 9] 0 in
  match packets_read (as_bytes p1 ++ as_bytes p2) with
  | Ok (p, []) => pk_into_iter p = Ok [repeat 7 255 ++ [8]; [9]] | _ => False end.
Proof. vm_compute. reflexivity. Qed.

(** C40: read_count n returns the first n packets of read, or fails when there are fewer. *)
Theorem C40_read_count_prefix : forall ps tail e n all,
  Forall (fun p => fields_ok (fields p)) ps -> header_read 0 tail = Err e -> (0 < n)%nat ->
  (exists p0, packets_read (concat (map as_bytes ps) ++ tail) = Ok (p0, tail) /\ pk_into_iter p0 = Ok all) ->
  if (n <=? length all)%nat
  then exists p r', read_count (concat (map as_bytes ps) ++ tail) (Z.of_nat n) = Ok (p, r') /\ pk_into_iter p = Ok (firstn n all)
  else read_count (concat (map as_bytes ps) ++ tail) (Z.of_nat n) = Err NotEnoughData.
Proof.
  intros ps tail e n all Hok Ht Hn (p0 & E0 & Ei).
  rewrite <- flat_map_concat_map in *. fold (bytes_of ps) in *.
  rewrite (packets_read_spec ps tail e Hok Ht) in E0. inversion E0; subst p0; clear E0.
  rewrite pk_into_iter_spec in Ei.
  2:{ unfold pk_wf; cbn [pk_sizes pk_content]. pose proof (delace_sum (segs_of ps) 0). rewrite content_sum in H by auto. lia. }
  inversion Ei; subst all; clear Ei.
  pose proof (read_count_spec ps tail e n Hok Ht Hn) as R. cbv zeta in R.
  unfold pk_abs; cbn [pk_sizes pk_content]. rewrite cut_sizes_length.
  destruct (n <=? length (fst (delace 0 (segs_of ps))))%nat; auto.
  destruct R as (p & r' & E & Ea). exists p, r'. split; auto. rewrite pk_into_iter_spec. now rewrite Ea.
  pose proof (read_count_total (bytes_of ps ++ tail) (Z.of_nat n)) as T. rewrite E in T. exact T.
Qed.
Print Assumptions C40_read_count_prefix.
Example C40_ex : let p2 := mkPage 0 0 0 1 1 [1; 1; 2] 0 [8; 9; 1; 2] 0 in
  fields_ok (fields p2) /\ read_count (as_bytes p2) 2 = Ok (mkPackets [8; 9] [1; 1], [1; 2]) /\
  read_count (as_bytes p2) 4 = Err NotEnoughData.
Proof. split; [unfold fields_ok; cbn; repeat split; discriminate || reflexivity|vm_compute; auto]. Qed.

(** C41: on arbitrary input the reader never panics, and every Packets value it returns is consistent, so that
    no later get/set/iterate/paginate call panics. *)
Theorem C41_read_total : forall r count,
  match read_count r count with
  | Panic => False
  | Err _ => True
  | Ok (p, _) => (forall i, exists o, pk_get p (N.of_nat i) = Ok o) /\
                 (forall i c, exists b p', pk_set p (N.of_nat i) c = Ok (b, p')) /\
                 (exists l, pk_into_iter p = Ok l /\ forall s a f, exists ps, pk_paginate p s a f = Ok ps /\ paginate l s a f = Ok ps)
  end.
Proof.
  intros. pose proof (read_count_total r count) as H. destruct (read_count r count) as [[p r']| |]; auto.
  repeat split.
  - intros. eexists. now apply pk_get_spec.
  - intros. pose proof (pk_set_spec p i c H). destruct (nth_error (pk_abs p) i).
    + destruct H0 as (p' & E & _). eauto. + eauto.
  - exists (pk_abs p). split; [now apply pk_into_iter_spec|]. intros. 
    destruct (paginate_facts (pk_abs p) s a f) as (pages & E & _). exists pages. split; auto.
    unfold pk_paginate. rewrite pk_slices_spec by (rewrite N.add_0_l; exact H). rewrite dropN_0. exact E.
Qed.
Print Assumptions C41_read_total.
Example C41_ex : read_count [79; 103; 103; 83; 0; 1] (-1) = Ok (mkPackets [] [], [79; 103; 103; 83; 0; 1]).
Proof. vm_compute. reflexivity. Qed.
