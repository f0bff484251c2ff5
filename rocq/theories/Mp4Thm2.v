From Verif Require Import Base BaseLemmas Str StrLemmas TextModel TextSpec TextProof Mode PictureModel FileModel Mp4Model Mp4WriteModel Mp4Spec Mp4Proof Mp4Proof2 Mp4Proof3 Mp4Proof4 Mp4Proof5 Mp4Proof6 Mp4Proof7 Mp4Proof8 Mp4Proof9 Mp4Ex.

(** A file [top] with the list [old], free space around it ([f1], [f2]), and offsets only in [stco] tables *)
Definition saveable (pre k1 u1 : list box) (vers : bytes) (a0 f1 : list box) (old : box) (f2 b0 u2 k2 post : list box) : Prop :=
  let kids := a0 ++ f1 ++ old :: f2 ++ b0 in
  tag_file pre k1 u1 vers kids u2 k2 post /\
  Forall (every (fun b => box_name b <> $"tfhd")) (mp4_file pre k1 u1 (vers ++ encs kids) u2 k2 post) /\ Forall offsets_ok (k1 ++ u1 ++ u2 ++ k2) /\
  box_name old = $"ilst" /\ none_named ($"ilst") (f2 ++ b0) /\ all_free f1 /\ all_free f2 /\ ~ starts_free (rev a0) /\ ~ starts_free b0.
Definition padding_ok (padding : option N) : Prop := forall p, padding = Some p -> 8 <= p < 2 ^ 32.
Definition max_pad (padding : option N) : N := match padding with Some p => p | None => 0 end.

Lemma saveable_f2 : forall pre k1 u1 vers a0 f1 old f2 b0 u2 k2 post, saveable pre k1 u1 vers a0 f1 old f2 b0 u2 k2 post ->
  Forall item_ok a0 /\ Forall item_ok f1 /\ item_ok old /\ Forall item_ok f2 /\ Forall item_ok b0.
Proof.
  intros pre k1 u1 vers a0 f1 old f2 b0 u2 k2 post ((_ & _ & _ & _ & _ & HI & _) & _). rewrite !Forall_app in HI. destruct HI as (H1 & H2 & H3).
  apply Forall_cons_iff in H3. destruct H3 as [H3 H4]. apply Forall_app in H4. tauto.
Qed.
Lemma new_kids_len : forall a0 f1 old f2 b0 I padding kids' d upto, new_kids a0 f1 old f2 b0 I padding kids' d upto ->
  Z.of_N (lenN kids') = (Z.of_N (lenN (encs (a0 ++ f1 ++ old :: f2 ++ b0))) + d)%Z.
Proof.
  assert (FB : forall n, 8 <= n -> lenN (free_box n) = n).
  { intros n L. unfold free_box, sbox. rewrite !lenN_app, be_enc_len. change (lenN ($"free")) with 4. unfold lenN. rewrite repeat_length. lia. }
  intros a0 f1 old f2 b0 I padding kids' d upto H. rewrite !encs_app, encs_cons, encs_app.
  destruct H; rewrite !lenN_app, ?FB by lia; lia.
Qed.
Lemma new_kids_bound : forall a0 f1 old f2 b0 I padding kids' d upto, new_kids a0 f1 old f2 b0 I padding kids' d upto ->
  lenN kids' <= lenN (encs (a0 ++ f1 ++ old :: f2 ++ b0)) + lenN I + max_pad padding.
Proof.
  intros a0 f1 old f2 b0 I padding kids' d upto H. pose proof (new_kids_len _ _ _ _ _ _ _ _ _ _ H) as L.
  destruct H; subst; cbn [max_pad] in *; lia.
Qed.

(** * C116: saving a tag *)
Theorem C116_saved : forall pre k1 u1 vers a0 f1 old f2 b0 u2 k2 post tag m padding I,
  saveable pre k1 u1 vers a0 f1 old f2 b0 u2 k2 post -> build_ilst tag = Ok I -> padding_ok padding ->
  let top := mp4_file pre k1 u1 (vers ++ encs (a0 ++ f1 ++ old :: f2 ++ b0)) u2 k2 post in
  lenN (encs top) + lenN I + max_pad padding < 2 ^ 32 ->
  exists kids' d upto, new_kids a0 f1 old f2 b0 I padding kids' d upto /\
    let from := meta_at pre k1 u1 + 8 + lenN (vers ++ encs upto) in
    mp4_write (encs top) tag m padding
      = Ok [OpTrunc 0; OpWrite 0 (encs (mp4_file pre (shd d from k1) (shd d from u1) (vers ++ kids') (shd d from u2) (shd d from k2) post))].
Proof.
  intros pre k1 u1 vers a0 f1 old f2 b0 u2 k2 post tag m padding I HS HI HP top HL. pose proof (saveable_f2 _ _ _ _ _ _ _ _ _ _ _ _ HS) as (I1 & I2 & I3 & I4 & I5).
  destruct HS as (HT & HF & HO & HOLD & HN & F1 & F2 & NA & NB).
  destruct (new_kids_total a0 f1 old f2 b0 I padding) as (kids' & d & upto & HK); auto.
  { eapply Forall_impl; [|exact I4]; apply item_ok_hd. }
  exists kids', d, upto. split; [exact HK|]. apply write_ok with (I := I); auto. 1: { left. auto. }
  pose proof (new_kids_bound _ _ _ _ _ _ _ _ _ _ HK) as LB.
  assert (LT : moov_size k1 (udta_size u1 (8 + lenN (vers ++ encs (a0 ++ f1 ++ old :: f2 ++ b0))) u2) k2 <= lenN (encs top)).
  { unfold top. rewrite file_lay. unfold lay. rewrite !lenN_app, !be4_len. change (lenN ($"moov")) with 4. change (lenN ($"udta")) with 4. change (lenN ($"meta")) with 4.
    unfold moov_size, udta_size. lia. }
  unfold moov_size, udta_size in *. rewrite !lenN_app in *. lia.
Qed.

Lemma shd_sound : forall pre k1 u1 meta u2 k2 post, boxes_ok (mp4_file pre k1 u1 meta u2 k2 post) -> Forall offsets_ok (k1 ++ u1 ++ u2 ++ k2) ->
  Forall sound (k1 ++ u1 ++ u2 ++ k2).
Proof.
  intros pre k1 u1 meta u2 k2 post HO HF. destruct (file_parts _ _ _ _ _ _ _ HO) as (P1 & P2 & P3 & P4 & P5 & _).
  assert (B : boxes_ok (k1 ++ u1 ++ u2 ++ k2)) by (unfold boxes_ok in *; rewrite !Forall_app; tauto).
  rewrite Forall_forall in *. intros b X. unfold boxes_ok in B. rewrite Forall_forall in B. apply sound_of; auto using box_ok_len4, box_ok_containers.
Qed.
Lemma rewritten : forall data x, apply_log data [OpTrunc 0; OpWrite 0 x] = x.
Proof.
  intros. unfold apply_log, apply_op, write_at, set_len. cbn [fold_left]. rewrite !N.sub_0_l. unfold takeN, dropN.
  change (N.to_nat 0) with 0%nat. cbn [firstn app repeat]. rewrite skipn_nil, app_nil_r. reflexivity.
Qed.
(** What the other parts of the file must be like for the tag to be found again *)
Definition readable (o : mopts) (k1 u1 : list box) (a0 b0 u2 k2 : list box) : Prop :=
  mo_tags o = true /\ none_named ($"udta") k2 /\ none_named ($"ilst") a0 /\ quiet o (k1 ++ k2) /\ Forall boring (b0 ++ u2).

Theorem C116_read_back : forall pre k1 u1 vers a0 f1 old f2 b0 u2 k2 post tag m padding I o,
  saveable pre k1 u1 vers a0 f1 old f2 b0 u2 k2 post -> build_ilst tag = Ok I -> padding_ok padding ->
  let top := mp4_file pre k1 u1 (vers ++ encs (a0 ++ f1 ++ old :: f2 ++ b0)) u2 k2 post in
  lenN (encs top) + lenN I + max_pad padding < 2 ^ 32 ->
  Forall atom_ok tag -> tag <> [] -> Forall (kept o) tag -> readable o k1 u1 a0 b0 u2 k2 -> a0 <> [] ->
  exists log brand traks, mp4_write (encs top) tag m padding = Ok log /\ mp4_read (apply_log (encs top) log) o = Ok (brand, traks, Some tag).
Proof.
  intros pre k1 u1 vers a0 f1 old f2 b0 u2 k2 post tag m padding I o HS HI HP top HL HA HT HKE (R1 & R2 & R3 & R4 & R5) NA0.
  destruct (C116_saved _ _ _ _ _ _ _ _ _ _ _ _ tag m padding I HS HI HP HL) as (kids' & d & upto & HK & HW). cbv zeta in HW. fold top in HW. rewrite HW.
  pose proof (saveable_f2 _ _ _ _ _ _ _ _ _ _ _ _ HS) as (I1 & I2 & I3 & I4 & I5). pose proof HS as ((HO & HFT & N1 & N2 & N3 & HIK & HMF) & HTF & HOF & HOLD & HN & F1 & F2 & NA & NB).
  set (from := meta_at pre k1 u1 + 8 + lenN (vers ++ encs upto)) in *.
  destruct (build_ilst_ok tag I HA HI) as [[E _]|(_ & EI & LI & PI)]; [contradiction|].
  pose proof (shd_sound _ _ _ _ _ _ _ HO HOF) as SO. rewrite !Forall_app in SO. destruct SO as (S1 & S2 & S3 & S4).
  pose proof (file_parts _ _ _ _ _ _ _ HO) as PARTS. cbv zeta in PARTS. destruct PARTS as (P1 & P2 & P3 & P4 & P5 & P6 & PU & PM & LS & LU & LM & PMV).
  assert (NE : I <> []).
  { intros E. rewrite E in EI. apply (f_equal (fun l => lenN l)) in EI. rewrite leaf_len in EI by reflexivity. change (lenN (@nil N)) with 0 in EI. lia. }
  assert (LK : lenN (encs f1) + lenN (enc old) + lenN (encs f2) < 2 ^ 32).
  { clear - LM. rewrite lenN_app, !encs_app, encs_cons, encs_app, !lenN_app in LM. lia. }
  destruct (new_kids_boxes _ _ _ _ _ _ _ _ _ _ HK F2 I4 LK) as [[E _]|(_ & fr & FR & IR & EK)]; [contradiction|].
  assert (EQ : vers ++ kids' = vers ++ encs (a0 ++ leaf ($"ilst") (flat_map item_box tag) :: fr ++ b0)) by (rewrite encs_app, encs_cons, <- EI, EK; reflexivity).
  rewrite EQ.
  assert (BR : Forall boring fr) by (eapply Forall_impl; [|exact FR]; intros x X; cbn in X; split; rewrite X; discriminate).
  apply Forall_app in R5. destruct R5 as [R5 R6].
  destruct (read_tag o pre (shd d from k1) (shd d from u1) vers a0 (8 + lenN (flat_map item_box tag)) (flat_map item_box tag) (fr ++ b0) (shd d from u2) (shd d from k2) post R1) as (brand & tr & ER).
  - repeat split.
    + fold (leaf ($"ilst") (flat_map item_box tag)). rewrite <- EQ. apply file_ok; auto using shd_ok.
      unfold moov_size, udta_size. rewrite !shd_len by auto. pose proof (new_kids_bound _ _ _ _ _ _ _ _ _ _ HK) as LB.
      unfold top in HL. rewrite file_lay in HL. unfold lay in HL. rewrite !lenN_app, !be4_len in HL. rewrite lenN_app. change (lenN ($"moov")) with 4 in HL. change (lenN ($"udta")) with 4 in HL. change (lenN ($"meta")) with 4 in HL. lia.
    + eapply ftyp_pre; eauto.
    + exact N1.
    + rewrite <- shd_app. apply shd_named. unfold none_named in *. apply Forall_app; auto.
    + now apply shd_named.
    + apply Forall_app. split; auto. constructor; [|apply Forall_app; auto]. split; [reflexivity|]. split; [exact LI|]. split; [idok|idne].
    + destruct HMF as [HMS _]. destruct a0 as [|x a0]; [contradiction|]. exact HMS.
    + rewrite <- shd_app. now apply shd_quiet.
    + now apply shd_boring.
  - exact R3.
  - apply Forall_app; auto.
  - exists [OpTrunc 0; OpWrite 0 (encs (mp4_file pre (shd d from k1) (shd d from u1) (vers ++ encs (a0 ++ leaf ($"ilst") (flat_map item_box tag) :: fr ++ b0)) (shd d from u2) (shd d from k2) post))], brand, tr.
    split; [reflexivity|]. rewrite rewritten. unfold leaf. rewrite ER, PI by auto. reflexivity.
Qed.

(** * C117: the audio data is still found at the offsets *)
Theorem C117_offsets : forall pre k1 u1 vers a0 f1 old f2 b0 u2 k2 post tag m padding I,
  saveable pre k1 u1 vers a0 f1 old f2 b0 u2 k2 post -> build_ilst tag = Ok I -> padding_ok padding ->
  let top := mp4_file pre k1 u1 (vers ++ encs (a0 ++ f1 ++ old :: f2 ++ b0)) u2 k2 post in
  lenN (encs top) + lenN I + max_pad padding < 2 ^ 32 ->
  exists d from k1' u1' meta' u2' k2', let new := mp4_file pre k1' u1' meta' u2' k2' post in
    mp4_write (encs top) tag m padding = Ok [OpTrunc 0; OpWrite 0 (encs new)] /\
    (k1', u1', u2', k2') = (shd d from k1, shd d from u1, shd d from u2, shd d from k2) /\
    (forall j, let o := lenN (encs top) - lenN (encs post) + j in j < lenN (encs post) ->
       dropN (if (d =? 0)%Z then o else moved d from o) (encs new) = dropN j (encs post) /\ dropN o (encs top) = dropN j (encs post)) /\
    (forall o, o < lenN (encs pre) -> moved d from o = o) /\
    takeN (lenN (encs pre)) (encs new) = takeN (lenN (encs pre)) (encs top).
Proof.
  intros pre k1 u1 vers a0 f1 old f2 b0 u2 k2 post tag m padding I HS HI HP top HL.
  destruct (C116_saved _ _ _ _ _ _ _ _ _ _ _ _ tag m padding I HS HI HP HL) as (kids' & d & upto & HK & HW). cbv zeta in HW. fold top in HW.
  set (from := meta_at pre k1 u1 + 8 + lenN (vers ++ encs upto)) in *.
  pose proof HS as ((HO & HFT & N1 & N2 & N3 & HIK & HMF) & HTF & HOF & HOLD & HN & F1 & F2 & NA & NB).
  pose proof (shd_sound _ _ _ _ _ _ _ HO HOF) as SO. rewrite !Forall_app in SO. destruct SO as (S1 & S2 & S3 & S4).
  exists d, from, (shd d from k1), (shd d from u1), (vers ++ kids'), (shd d from u2), (shd d from k2). cbv zeta. split; [exact HW|]. split; [reflexivity|].
  set (new := mp4_file pre (shd d from k1) (shd d from u1) (vers ++ kids') (shd d from u2) (shd d from k2) post).
  set (kids := a0 ++ f1 ++ old :: f2 ++ b0) in *.
  assert (SP : forall k1 u1 meta u2 k2, exists x, encs (mp4_file pre k1 u1 meta u2 k2 post) = encs pre ++ x ++ encs post /\ lenN x = moov_size k1 (udta_size u1 (8 + lenN meta) u2) k2).
  { intros. rewrite file_tree, !encs_app, encs_one. eexists. split; [reflexivity|]. cbn [enc]. fold (encs (moov_kids k0 (udta_size u0 (8 + lenN meta) u3) u0 (8 + lenN meta) meta u3 k3)).
    rewrite lenN_hd by reflexivity. unfold moov_kids. rewrite !encs_app, encs_one, !lenN_app, udta_len. unfold moov_size. lia. }
  destruct (SP k1 u1 (vers ++ encs kids) u2 k2) as (x & EX & LX). destruct (SP (shd d from k1) (shd d from u1) (vers ++ kids') (shd d from u2) (shd d from k2)) as (y & EY & LY).
  fold top in EX. fold new in EY. pose proof (new_kids_len _ _ _ _ _ _ _ _ _ _ HK) as NL. fold kids in NL.
  unfold moov_size, udta_size in LX, LY. rewrite !shd_len in LY by auto. rewrite !lenN_app in LX, LY.
  pose proof (new_kids_bound _ _ _ _ _ _ _ _ _ _ HK) as LB. fold kids in LB.
  assert (UP : lenN (encs upto) <= lenN (encs kids)).
  { destruct HK; unfold kids; rewrite !encs_app, ?encs_cons, ?encs_app, !lenN_app; lia. }
  assert (FL : lenN (encs pre) <= from) by (unfold from, meta_at, udta_at, moov_at; lia).
  assert (FU : from <= lenN (encs pre) + lenN x) by (unfold from, meta_at, udta_at, moov_at; rewrite lenN_app; lia).
  assert (LYX : Z.of_N (lenN y) = (Z.of_N (lenN x) + d)%Z) by lia.
  assert (LT : lenN (encs top) = lenN (encs pre) + lenN x + lenN (encs post)) by (rewrite EX, !lenN_app; lia).
  repeat split.
  - replace (if (d =? 0)%Z then lenN (encs top) - lenN (encs post) + j else moved d from (lenN (encs top) - lenN (encs post) + j)) with (lenN (encs pre ++ y) + j).
    + rewrite EY, app_assoc, <- dropN_dropN. rewrite dropN_app by reflexivity. reflexivity.
    + rewrite lenN_app. destruct (Z.eqb_spec d 0); [lia|]. unfold moved. replace (_ <? from) with false by lia.
      rewrite Z.mod_small by lia. lia.
  - replace (lenN (encs top) - lenN (encs post) + j) with (lenN (encs pre ++ x) + j) by (rewrite lenN_app; lia).
    rewrite EX, app_assoc, <- dropN_dropN. rewrite dropN_app by reflexivity. reflexivity.
  - intros o L. unfold moved. replace (o <? from) with true by lia. reflexivity.
  - rewrite EX, EY. now rewrite !takeN_app by reflexivity.
Qed.
(** The tables after a move *)
Theorem C117_tables : forall d from s c offs, table 4 c offs ->
  exists c', shift_tables d from (Leaf s ($"stco") c) = Leaf s ($"stco") c' /\ table 4 c' (map (moved d from) offs) /\ lenN c' = lenN c.
Proof.
  intros d from s c offs H. destruct (map_table_ok 4 (moved d from) c offs H) as (ver & rest & V & E & E'). destruct H as (_ & _ & _ & _ & L & B).
  exists (map_table 4 (moved d from) c). split; [reflexivity|]. split.
  - exists ver, rest. split; [exact V|]. unfold lenN. rewrite map_length. split; [exact E'|]. split; [exact L|].
    rewrite Forall_map. eapply Forall_impl; [|exact B]. intros o O. unfold moved. destruct (o <? from); auto.
    pose proof (Z.mod_pos_bound (Z.of_N o + d) (2 ^ 32) ltac:(lia)). change (256 ^ N.of_nat 4) with 4294967296. change (2 ^ 32)%Z with 4294967296%Z in *. lia.
  - rewrite E', E at 1. rewrite !lenN_app. do 2 f_equal. f_equal. clear. induction offs as [|o offs IH]; auto. cbn [map flat_map]. rewrite !lenN_app, IH, !be_enc_len. reflexivity.
Qed.
Example C116_ex_can : saveable [ftyp_ex] [leaf ($"mvhd") [9]; trak_ex (stco_ex [219])] [] [0; 0; 0; 0] [hdlr_ex] [] (ilst_ex ($"ab")) [free_ex 4] [] [] [] [mdat_ex].
Proof.
  assert (NE : forall (a b : bytes), list_eqb a b = false -> a <> b) by (intros a b H ->; now rewrite list_eqb_refl in H).
  unfold saveable. cbv zeta. split; [|split; [|split; [|split; [|split; [|split; [|split; [|split]]]]]]].
  - unfold tag_file. split; [apply boxesb_ok; reflexivity|]. split; [split; [reflexivity|]; exists ($"M4A "), ($"M4A "), [0; 0; 2; 0]; repeat (split; [reflexivity|]); split; [repeat constructor; unfold scalar; lia|reflexivity]|].
    split; [constructor; [apply NE; reflexivity|constructor]|]. split; [repeat (constructor; [apply NE; reflexivity|]); constructor|]. split; [constructor|].
    split; [|split].
    + repeat (constructor; [unfold item_ok; split; [reflexivity|]; split; [reflexivity|]; split; [split; [reflexivity|]; repeat (constructor; [cbn; lia|]); constructor|apply NE; reflexivity]|]). constructor.
    + right. split; [reflexivity|]. intros I. apply existsb_In in I. vm_compute in I. discriminate.
    + discriminate.
  - unfold mp4_file. cbn [app]. repeat (constructor; [cbn [every]; repeat (split; [apply NE; reflexivity|]); repeat split; apply NE; reflexivity|]). constructor.
  - repeat (constructor; [cbn [every offsets_ok]; repeat split; try (apply NE; reflexivity); try discriminate|]). 2: constructor.
    cbn [box_name leaf stco_ex].  intros _. exists [219], [0;0;0;0], []. repeat split. constructor; [reflexivity|constructor].
  - reflexivity.
  - repeat (constructor; [apply NE; reflexivity|]). constructor.
  - constructor.
  - constructor; [reflexivity|constructor].
  - intros X. vm_compute in X. discriminate.
  - intros X. exact X.
Qed.
Example C116_ex :
  mp4_write (encs (file_ex [219] ($"ab") [free_ex 4])) [nam ($"a longer title")] Strict (Some 16)
    = Ok [OpTrunc 0; OpWrite 0 (encs (file_ex [231] ($"a longer title") [free_ex 4]))] /\
  mp4_write (encs (file_ex [219] ($"ab") [free_ex 4])) [nam ($"abc")] Strict (Some 16)
    = Ok [OpTrunc 0; OpWrite 0 (encs (file_ex [219] ($"abc") [free_ex 3]))].
Proof. split; vm_compute; reflexivity. Qed.
Example C116_ex_read :
  mp4_read (encs (file_ex [231] ($"a longer title") [free_ex 4])) read_ex
    = Ok ($"M4A ", [mkAi 50 62 false (Fourcc ($"mdia"))], Some [nam ($"a longer title")]).
Proof. vm_compute. reflexivity. Qed.
(** the chunk that was at 219 is at 231 *)
Example C117_ex : moved 12 147 219 = 231 /\
  dropN 219 (encs (file_ex [219] ($"ab") [free_ex 4])) = [100; 101; 102; 103; 104] /\
  dropN 231 (encs (file_ex [231] ($"a longer title") [free_ex 4])) = [100; 101; 102; 103; 104].
Proof. vm_compute. auto. Qed.
Print Assumptions C116_saved.
Print Assumptions C116_read_back.
Print Assumptions C117_offsets.
Print Assumptions C117_tables.

(** ** Refuted: 64-bit tables. The number of entries is read from the low half of the first offset. *)
Lemma shift_entries_eof : forall n pos d from v, lenN v < pos + 8 * N.of_nat n -> n <> O -> shift_entries 8 n pos d from v = Err MEof.
Proof.
  induction n as [|n IH]; intros pos d from v H NZ; [congruence|]. cbn [shift_entries].
  destruct (N.ltb_spec (lenN v) (pos + 8)).
  - unfold read_exact. rewrite lenN_dropN. replace (8 <=? lenN v - pos) with false by lia. reflexivity.
  - unfold read_exact. rewrite lenN_dropN. replace (8 <=? lenN v - pos) with true by lia. cbn [mord bind].
    assert (WL : forall w, lenN w = 8 -> lenN (write_at pos w v) = lenN v).
    { intros w W. unfold write_at. replace (pos - lenN v) with 0 by lia. change (repeat 0 (N.to_nat 0)) with (@nil N). rewrite !lenN_app, lenN_takeN, lenN_dropN, W. change (lenN (@nil N)) with 0. lia. }
    apply IH; [|intros ->; lia]. destruct (_ <? from); [lia|]. rewrite WL; [lia|]. rewrite be_enc_len. reflexivity.
Qed.
Lemma le_dec_app : forall a b, le_dec (a ++ b) = le_dec a + 256 ^ lenN a * le_dec b.
Proof.
  induction a as [|x a IH]; intros b; [cbn [app le_dec]; change (lenN (@nil N)) with 0; rewrite N.pow_0_r; lia|].
  cbn [app le_dec]. rewrite IH, lenN_cons, N.add_comm, N.pow_add_r. lia.
Qed.
Lemma be_dec_app : forall a b, be_dec (a ++ b) = be_dec a * 256 ^ lenN b + be_dec b.
Proof. intros. unfold be_dec. rewrite rev_app_distr, le_dec_app, lenN_rev. lia. Qed.
Theorem C117_co64_refuted : forall i l d from v pre offs o post,
  v = pre ++ enc (leaf ($"co64") ([0; 0; 0; 0] ++ be_enc 4 (lenN (o :: offs)) ++ flat_map (be_enc 8) (o :: offs))) ++ post -> a_start i = lenN pre ->
  o < 2 ^ 64 -> lenN v <= 8 * (o mod 2 ^ 32) -> o mod 2 ^ 32 <> 0 ->
  shift_co64 (i :: l) d from v = Err MEof.
Proof.
  intros i l d from v pre offs o post EV ES HO HL HZ. cbn [shift_co64]. unfold shift_table.
  assert (E : exists x rest, be_enc 8 o = x ++ be_enc 4 (o mod 2 ^ 32) /\ lenN x = 4 /\ rest = flat_map (be_enc 8) offs ++ post).
  { exists (be_enc 4 (o / 2 ^ 32)). eexists. split; [|split; [apply be_enc_len|reflexivity]].
    rewrite <- (be_enc_dec (be_enc 4 (o / 2 ^ 32) ++ be_enc 4 (o mod 2 ^ 32))) by (apply Forall_app; split; apply be_enc_ok).
    assert (L8 : length (be_enc 4 (o / 2 ^ 32) ++ be_enc 4 (o mod 2 ^ 32)) = 8%nat) by (apply Nat2N.inj; fold (lenN (be_enc 4 (o / 2 ^ 32) ++ be_enc 4 (o mod 2 ^ 32))); rewrite lenN_app, !be_enc_len; reflexivity).
    rewrite L8. f_equal. rewrite be_dec_app, !be_dec_enc, be_enc_len; change (256 ^ N.of_nat 4) with (2 ^ 32); [|apply N.mod_lt; discriminate|apply N.div_lt_upper_bound; [discriminate|exact HO]].
    rewrite N.mul_comm. apply N.div_mod. discriminate. }
  destruct E as (x & rest & E & LX & ER).
  assert (D : dropN (a_start i + 20) v = be_enc 4 (o mod 2 ^ 32) ++ rest).
  { rewrite EV, ES. unfold leaf. cbn [enc flat_map]. rewrite E, ER. set (sz := be_enc 4 (8 + _)). set (ct := be_enc 4 (lenN (o :: offs))).
    replace (pre ++ (sz ++ $"co64" ++ [0; 0; 0; 0] ++ ct ++ (x ++ be_enc 4 (o mod 2 ^ 32)) ++ flat_map (be_enc 8) offs) ++ post)
      with ((pre ++ sz ++ $"co64" ++ [0; 0; 0; 0] ++ ct ++ x) ++ be_enc 4 (o mod 2 ^ 32) ++ flat_map (be_enc 8) offs ++ post) by (now rewrite <- !app_assoc).
    apply dropN_app. rewrite !lenN_app, LX. unfold sz, ct. rewrite !be_enc_len. change (lenN ($"co64")) with 4. change (lenN [0; 0; 0; 0]) with 4. lia. }
  rewrite D. rewrite (read_be_app 4 4) by first [reflexivity | change (256 ^ 4) with (2 ^ 32); apply N.mod_lt; discriminate]. cbn [mord bind].
  rewrite shift_entries_eof; [reflexivity| |lia]. rewrite N2Nat.id. lia.
Qed.
Print Assumptions C117_co64_refuted.
Definition co64_ex (offs : list N) : box := leaf ($"co64") ([0; 0; 0; 0] ++ be_enc 4 (lenN offs) ++ flat_map (be_enc 8) offs).
Definition file64_ex (offs : list N) (s : str) : list box :=
  mp4_file [ftyp_ex] [leaf ($"mvhd") [9]; trak_ex (co64_ex offs)] [] ([0; 0; 0; 0] ++ encs ([hdlr_ex] ++ [] ++ ilst_ex s :: [])) [] [] [mdat_ex].
(** A longer title cannot be saved to this file; with the offset 0 in the first place the others are left stale. *)
Example C117_co64_ex :
  mp4_write (encs (file64_ex [211] ($"ab"))) [nam ($"abc")] Strict (Some 16) = Err MEof /\
  mp4_write (encs (file64_ex [0; 219] ($"ab"))) [nam ($"abc")] Strict (Some 16) = Ok [OpTrunc 0; OpWrite 0 (encs (file64_ex [0; 219] ($"abc")))] /\
  dropN 219 (encs (file64_ex [0; 219] ($"ab"))) = [100; 101; 102; 103; 104] /\ dropN 220 (encs (file64_ex [0; 219] ($"abc"))) = [100; 101; 102; 103; 104].
Proof. vm_compute. auto. Qed.
(** ** Refuted: fragments. The header of a track fragment, in [traf] in [moof], is not touched whatever moves. *)
Theorem C117_fragments_refuted : forall pre k1 u1 vers a0 f1 old f2 b0 u2 k2 p1 fragment p2 tag m padding I,
  let post := p1 ++ node ($"moof") [leaf ($"traf") (enc (leaf ($"tfhd") fragment))] :: p2 in
  saveable pre k1 u1 vers a0 f1 old f2 b0 u2 k2 post -> build_ilst tag = Ok I -> padding_ok padding ->
  let top := mp4_file pre k1 u1 (vers ++ encs (a0 ++ f1 ++ old :: f2 ++ b0)) u2 k2 post in
  lenN (encs top) + lenN I + max_pad padding < 2 ^ 32 ->
  exists front new, mp4_write (encs top) tag m padding = Ok [OpTrunc 0; OpWrite 0 new] /\
    new = front ++ encs p1 ++ enc (node ($"moof") [leaf ($"traf") (enc (leaf ($"tfhd") fragment))]) ++ encs p2.
Proof.
  intros pre k1 u1 vers a0 f1 old f2 b0 u2 k2 p1 fragment p2 tag m padding I post HS HI HP top HL.
  destruct (C116_saved _ _ _ _ _ _ _ _ _ _ _ _ tag m padding I HS HI HP HL) as (kids' & d & upto & HK & HW). cbv zeta in HW. fold top in HW.
  rewrite HW. eexists _, _. split; [reflexivity|]. unfold mp4_file, post. rewrite !encs_app, encs_cons, app_assoc. reflexivity.
Qed.
Print Assumptions C117_fragments_refuted.
Definition frag_ex (base : N) : box := node ($"moof") [leaf ($"traf") (enc (leaf ($"tfhd") ([0; 0; 0; 1] ++ be_enc 4 1 ++ be_enc 8 base)))].
Definition file_frag_ex (base : N) (s : str) : list box :=
  mp4_file [ftyp_ex] [leaf ($"mvhd") [9]] [] ([0; 0; 0; 0] ++ encs ([hdlr_ex] ++ [] ++ ilst_ex s :: [])) [] [] [frag_ex base; mdat_ex].
(** The base offset 168 of the fragment should be 169 in the new file. *)
Example C117_fragments_ex :
  mp4_write (encs (file_frag_ex 168 ($"ab"))) [nam ($"abc")] Strict (Some 16) = Ok [OpTrunc 0; OpWrite 0 (encs (file_frag_ex 168 ($"abc")))] /\
  dropN 168 (encs (file_frag_ex 168 ($"ab"))) = [100; 101; 102; 103; 104] /\ dropN 169 (encs (file_frag_ex 168 ($"abc"))) = [100; 101; 102; 103; 104].
Proof. vm_compute. auto. Qed.
