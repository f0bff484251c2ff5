From Verif Require Import BaseLemmas OggModel OggSpec OggCrcProof OggProof OggReadProof OggPacketsProof OggPagProof OggPagProof2.

Lemma seqs_map : forall n idx, seqs idx n = map (fun i => (idx + N.of_nat i) mod 2 ^ 32) (seq 0 n).
Proof.
  induction n; intros; [reflexivity|]. cbn [seqs seq map]. f_equal.
  - f_equal. lia.
  - rewrite IHn, <- seq_shift, map_map. apply map_ext. intros. f_equal. lia.
Qed.

Definition want (flags bit : N) : bool := negb (N.land flags bit =? 0).

Lemma land4 : forall f, (N.land f 4 =? 4) = want f 4.
Proof.
  intros. unfold want. change 4 with (N.shiftl (N.ones 1) 2). rewrite land_mask_shift.
  change (2 ^ 1) with 2. change (2 ^ 2) with 4. assert (f / 4 mod 2 = 0 \/ f / 4 mod 2 = 1) by lia.
  destruct H; rewrite H; reflexivity.
Qed.

Lemma paginate_facts : forall ps serial abgp flags,
  exists pages, paginate ps serial abgp flags = Ok pages /\
    content_of pages = concat ps /\
    segs_of pages = flat_map lacing (filter (@nonempty N) ps) /\
    Forall (small_page abgp serial) pages /\
    map pg_seq pages = map (fun i => N.of_nat i mod 2 ^ 32) (seq 0 (length pages)) /\
    flags_ok true false (want flags 2) (want flags 4) (map fs pages) /\
    (forall p, In p pages ->
      (packet_ends_on (pg_segs p) -> pg_abgp p = abgp) /\
      (Forall (fun pk => pk = [] \/ lenN pk mod MAXC <> 0) ps -> ~ packet_ends_on (pg_segs p) -> pg_abgp p = 2 ^ 64 - 1) /\
      (pg_abgp p = abgp \/ pg_abgp p = 2 ^ 64 - 1)).
Proof.
  intros. rewrite paginate_spec. cbv zeta. fold (want flags 2). rewrite land4.
  set (P := all_pages abgp serial (want flags 2) true 0 ps).
  pose proof (all_content abgp serial (want flags 2) ps true 0) as Hc. fold P in Hc.
  pose proof (all_segs abgp serial (want flags 2) ps true 0) as Hs. fold P in Hs.
  pose proof (all_small abgp serial (want flags 2) ps true 0) as Hsm. fold P in Hsm.
  pose proof (all_seq abgp serial (want flags 2) ps true 0) as Hq. fold P in Hq. rewrite seqs_map in Hq.
  pose proof (all_flags abgp serial (want flags 2) ps true 0) as Hf. fold P in Hf.
  pose proof (all_abgp abgp serial (want flags 2) ps true 0) as Ha. fold P in Ha.
  eexists. split; [reflexivity|].
  destruct (want flags 4).
  - unfold content_of, segs_of in *.
    rewrite !mark_last_flat by (intros; reflexivity).
    assert (El : length (mark_last P) = length P).
    { rewrite <- (map_length pg_seq (mark_last P)), <- (map_length pg_seq P). f_equal. apply mark_last_map. reflexivity. }
    repeat apply conj; auto.
    + rewrite Forall_forall in *. intros p Hp. apply mark_last_in in Hp as [Hp|(q & Hp & ->)]; auto.
      specialize (Hsm q Hp). unfold small_page in *. cbn [set_flag pg_segs pg_content pg_serial pg_abgp pg_seq pg_cksum pg_flag].
      repeat split; try tauto. change LAST_PAGE with 4.
      pose proof (flags_small _ _ _ _ Hf) as Hfs. rewrite Forall_forall in Hfs. specialize (Hfs q Hp). cbn in Hfs. rewrite lor4 by auto. lia.
    + rewrite (mark_last_map _ pg_seq) by reflexivity. rewrite El. exact Hq.
    + apply mark_last_flags. exact Hf.
    + intros p Hp. apply mark_last_in in Hp as [Hp|(q & Hp & ->)]; auto. apply (Ha q Hp).
  - repeat apply conj; auto.
Qed.

(** Lacing and delacing *)
Lemma delace_repeat : forall n acc rest, delace acc (repeat 255 n ++ rest) = delace (acc + 255 * N.of_nat n) rest.
Proof.
  induction n; intros; cbn [repeat app delace].
  - f_equal. lia.
  - change (255 <? 255) with false. cbn iota. rewrite IHn. f_equal. lia.
Qed.
Lemma delace_lacing : forall l, delace 0 (flat_map lacing l) = (map lenN l, 0).
Proof.
  induction l; [reflexivity|]. cbn [flat_map map]. unfold lacing at 1. rewrite <- app_assoc, delace_repeat.
  cbn [app delace]. destruct (N.ltb_spec (lenN a mod 255) 255); [|lia].
  rewrite IHl. do 2 f_equal. lia.
Qed.
Lemma cut_map_len : forall l t, cut_sizes (map lenN l) (concat l ++ t) = l.
Proof.
  induction l; intros; cbn [map concat cut_sizes]; auto.
  rewrite <- app_assoc, takeN_app, dropN_app by auto. now rewrite IHl.
Qed.
Lemma concat_filter : forall ps : list bytes, concat (filter (@nonempty N) ps) = concat ps.
Proof. induction ps; cbn [filter concat]; auto. destruct a; cbn [nonempty concat]; rewrite ?IHps; auto. Qed.

(** Checksums *)
Lemma as_bytes_ok : forall p, bytes_ok (pg_segs p) -> bytes_ok (pg_content p) -> pg_flag p < 256 -> bytes_ok (as_bytes p).
Proof.
  intros. unfold as_bytes. repeat (apply Forall_app; split); auto using le_enc_ok;
    unfold OggS; repeat (apply Forall_cons || apply Forall_nil); unfold byte_ok; auto; lia.
Qed.

Definition crc_page (p : page) : page := set_cksum (crc_spec (as_bytes (set_cksum 0 p))) p.

Lemma gen_crc_spec : forall p, bytes_ok (pg_segs p) -> bytes_ok (pg_content p) -> pg_flag p < 256 ->
  gen_crc p = Ok (crc_page p) /\ pg_cksum (crc_page p) < 2 ^ 32.
Proof.
  intros. unfold gen_crc, crc_page.
  destruct (crc32_spec (as_bytes (set_cksum 0 p))) as [E1 E2]. { now apply as_bytes_ok. }
  rewrite E1. split; auto.
Qed.

Lemma write_pages_spec : forall ps, Forall (fun p => bytes_ok (pg_segs p) /\ bytes_ok (pg_content p) /\ pg_flag p < 256) ps ->
  write_pages ps = Ok (bytes_of (map crc_page ps)).
Proof.
  induction 1; [reflexivity|]. cbn [write_pages]. destruct H as (H1 & H2 & H3).
  destruct (gen_crc_spec _ H1 H2 H3) as [-> _]. cbn [bind]. rewrite IHForall. reflexivity.
Qed.

Lemma content_ok : forall ps, bytes_ok (content_of ps) -> Forall (fun p => bytes_ok (pg_content p)) ps.
Proof.
  induction ps; intros; constructor; cbn [content_of flat_map] in H; apply Forall_app in H; try tauto.
Qed.

Lemma write_to_spec : forall p serial abgp flags, pk_wf p -> bytes_ok (pk_content p) ->
  serial < 2 ^ 32 -> abgp < 2 ^ 64 ->
  exists pages, paginate (pk_abs p) serial abgp flags = Ok pages /\
    write_to p serial abgp flags = Ok (bytes_of (map crc_page pages), lenN pages) /\
    Forall page_ok (map crc_page pages).
Proof.
  intros p serial abgp flags Hwf Hok Hs Ha.
  destruct (paginate_facts (pk_abs p) serial abgp flags) as (pages & E & Ec & Esg & Esm & Esq & Ef & Eab).
  exists pages. split; auto. unfold write_to, pk_paginate. rewrite pk_slices_spec by (rewrite N.add_0_l; exact Hwf).
  rewrite dropN_0. fold (pk_abs p). cbn [bind]. rewrite E. cbn [bind].
  assert (Hcok : bytes_ok (concat (pk_abs p))).
  { unfold pk_abs. revert Hok. generalize (pk_content p) (pk_sizes p). clear. intros c s. revert c.
    induction s; intros; cbn [cut_sizes concat]; auto. apply Forall_app. split. now apply Forall_takeN. apply IHs. now apply Forall_dropN. }
  rewrite <- Ec in Hcok. apply content_ok in Hcok.
  assert (HP : Forall (fun p => bytes_ok (pg_segs p) /\ bytes_ok (pg_content p) /\ pg_flag p < 256) pages).
  { rewrite Forall_forall in *. intros q Hq. specialize (Esm q Hq). unfold small_page in Esm. repeat split; try tauto. apply Hcok; auto. lia. }
  rewrite write_pages_spec by auto. cbn [bind]. split; auto.
  rewrite Forall_map. rewrite Forall_forall in *. intros q Hq.
  specialize (Esm q Hq). specialize (HP q Hq). destruct HP as (H1 & H2 & H3).
  destruct (gen_crc_spec _ H1 H2 H3) as [_ Hck]. unfold small_page in Esm.
  unfold page_ok, fields_ok, fields, crc_page, set_cksum in *.
  cbn [pg_flag pg_abgp pg_serial pg_seq pg_cksum pg_segs pg_content f_flag f_abgp f_serial f_seq f_cksum f_segs f_content] in *.
  destruct Esm as (S1 & S2 & S3 & S4 & S5 & S6 & S7 & S8). subst serial. repeat split; auto; lia.
Qed.

Lemma write_read : forall p serial abgp flags tail e, pk_wf p -> bytes_ok (pk_content p) ->
  serial < 2 ^ 32 -> abgp < 2 ^ 64 -> header_read 0 tail = Err e ->
  exists out n p', write_to p serial abgp flags = Ok (out, n) /\
    packets_read (out ++ tail) = Ok (p', tail) /\
    pk_into_iter p' = Ok (filter (@nonempty N) (pk_abs p)).
Proof.
  intros p serial abgp flags tail e Hwf Hok Hs Ha Ht.
  destruct (write_to_spec p serial abgp flags Hwf Hok Hs Ha) as (pages & E & Ew & Hpok).
  destruct (paginate_facts (pk_abs p) serial abgp flags) as (pages' & E' & Ec & Esg & Esm & Esq & Ef & Eab).
  rewrite E in E'. inversion E'; subst pages'. clear E'.
  eexists _, _, _. split; [exact Ew|]. split.
  - eapply packets_read_spec; eauto.
  - assert (E1 : content_of (map crc_page pages) = content_of pages).
    { unfold content_of. rewrite !flat_map_concat_map, map_map. reflexivity. }
    assert (E2 : segs_of (map crc_page pages) = segs_of pages).
    { unfold segs_of. rewrite !flat_map_concat_map, map_map. reflexivity. }
    rewrite E1, E2, Ec, Esg, delace_lacing. cbn [fst].
    rewrite pk_into_iter_spec.
    + f_equal. unfold pk_abs at 1. cbn [pk_sizes pk_content]. rewrite <- concat_filter.
      rewrite <- (app_nil_r (concat (filter _ _))). apply cut_map_len.
    + unfold pk_wf. cbn [pk_sizes pk_content]. rewrite <- concat_filter.
      generalize (filter (@nonempty N) (pk_abs p)). clear. induction l; cbn [map sumN concat]; [lia|]. rewrite lenN_app. lia.
Qed.

(** Histories of set operations *)
Fixpoint run_sets (p : packets) (ops : list (nat * bytes)) : res page_error packets :=
  match ops with
  | [] => Ok p
  | (i, c) :: ops' => let? (_, p') := pk_set p (N.of_nat i) c in run_sets p' ops'
  end.
Lemma update_nth_oob : forall A i (x : A) l, nth_error l i = None -> update_nth i x l = l.
Proof. induction i; destruct l; cbn; intros; auto; try discriminate. f_equal. auto. Qed.

Lemma run_sets_spec : forall ops p, pk_wf p ->
  exists p', run_sets p ops = Ok p' /\ pk_wf p' /\
    pk_abs p' = fold_left (fun l op => update_nth (fst op) (snd op) l) ops (pk_abs p).
Proof.
  induction ops as [|[i c] ops]; intros; cbn [run_sets fold_left fst snd].
  - eauto.
  - pose proof (pk_set_spec p i c H) as S. destruct (nth_error (pk_abs p) i) eqn:E.
    + destruct S as (p1 & -> & H1 & H2 & _). cbn [bind]. destruct (IHops p1 H1) as (p' & E1 & E2 & E3).
      exists p'. rewrite <- H2. auto.
    + rewrite S. cbn [bind]. destruct (IHops p H) as (p' & E1 & E2 & E3). exists p'. rewrite update_nth_oob; auto.
Qed.

Lemma get_after_sets : forall ops p i, pk_wf p ->
  exists p', run_sets p ops = Ok p' /\
    pk_get p' (N.of_nat i) = Ok (nth_error (fold_left (fun l op => update_nth (fst op) (snd op) l) ops (pk_abs p)) i) /\
    pk_into_iter p' = Ok (fold_left (fun l op => update_nth (fst op) (snd op) l) ops (pk_abs p)) /\
    pk_len p' = lenN (pk_abs p).
Proof.
  intros. destruct (run_sets_spec ops p H) as (p' & E1 & E2 & E3). exists p'. rewrite <- E3. repeat split; auto.
  - now apply pk_get_spec.
  - now apply pk_into_iter_spec.
  - unfold pk_len. assert (lenN (pk_abs p') = lenN (pk_sizes p')) by (unfold pk_abs, lenN; now rewrite cut_sizes_length).
    rewrite <- H0, E3. generalize (pk_abs p). clear. induction ops; intros; cbn [fold_left]; auto. rewrite IHops.
    unfold lenN. f_equal. generalize (fst a) (snd a). clear. intros n b. revert l. induction n; destruct l; cbn; auto.
Qed.
