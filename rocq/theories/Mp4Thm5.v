From Verif Require Import Base BaseLemmas Str StrLemmas TextModel TextSpec TextProof Mode PictureModel FileModel Mp4Model Mp4WriteModel Mp4Spec Mp4Proof Mp4Proof2 Mp4Proof3 Mp4Proof4 Mp4Proof5 Mp4Proof6 Mp4Proof7 Mp4Proof8 Mp4Proof9 Mp4Ex Mp4Thm2 Mp4Thm3.

(** * C121: crashes *)
Theorem C121_rewrites : forall data tag m padding log, mp4_write data tag m padding = Ok log -> log = [] \/ exists v, log = [OpTrunc 0; OpWrite 0 v].
Proof.
  intros data tag m padding log H. unfold mp4_write in H.
  assert (FIN : forall n v s sz, (let? n := msub n s in let? v := write_size sz (n + s) v in Ok [OpTrunc 0; OpWrite 0 v]) = Ok log -> exists v, log = [OpTrunc 0; OpWrite 0 v]).
  { intros n v s sz X. destruct (msub n s); cbn [bind] in X; try discriminate. destruct (write_size _ _ _); cbn [bind] in X; try discriminate. inversion X. eauto. }
  destruct (verify_mp4 _ _ _) as [u| |]; cbn [bind] in H; try discriminate.
  destruct (read_atoms _ _) as [top| |]; cbn [bind] in H; try discriminate.
  destruct (find_top _ _) as [moov|]; [|discriminate].
  destruct (build_ilst tag) as [I| |]; cbn [bind] in H; try discriminate.
  destruct (find_child _ _ _ _ _ _) as [[[udta|] r]| |]; cbn [bind] in H; try discriminate.
  - destruct (find_child _ _ _ _ _ _) as [[[meta|] r']| |]; cbn [bind] in H; try discriminate.
    + destruct (meta_is_full _ _) as [[f r'']| |]; cbn [bind] in H; try discriminate.
      destruct (save_to_existing _ _ _ _ _ _ _ _ _) as [[v u']| |]; cbn [bind] in H; try discriminate.
      right. destruct (msub _ _); cbn [bind] in H; try discriminate. destruct (write_size _ _ _); cbn [bind] in H; try discriminate. inversion H. eauto.
    + destruct I; [inversion H; auto|]. destruct (create_meta _); cbn [bind] in H; try discriminate. destruct (write_size _ _ _); cbn [bind] in H; try discriminate.
      destruct (splice _ _ _ _); cbn [bind] in H; try discriminate.
      right. destruct (msub _ _); cbn [bind] in H; try discriminate. destruct (write_size _ _ _); cbn [bind] in H; try discriminate. inversion H. eauto.
  - destruct I; [inversion H; auto|]. destruct (create_udta _); cbn [bind] in H; try discriminate. destruct (splice _ _ _ _); cbn [bind] in H; try discriminate.
    right. destruct (msub _ _); cbn [bind] in H; try discriminate. destruct (write_size _ _ _); cbn [bind] in H; try discriminate. inversion H. eauto.
Qed.
Print Assumptions C121_rewrites.
Theorem C121_crash_refuted : forall data tag m padding log, mp4_write data tag m padding = Ok log -> log <> [] -> crash data log [].
Proof.
  intros data tag m padding log H NE. destruct (C121_rewrites _ _ _ _ _ H) as [E|[v ->]]; [contradiction|].
  replace (@nil N) with (apply_log data [OpTrunc 0]); [apply (crash_clean data [OpTrunc 0; OpWrite 0 v] [OpTrunc 0] [OpWrite 0 v]); reflexivity|].
  unfold apply_log, apply_op, set_len. cbn [fold_left]. rewrite N.sub_0_l. reflexivity.
Qed.
Print Assumptions C121_crash_refuted.
Example C121_ex : exists log, mp4_write (encs (file_ex [219] ($"ab") [free_ex 4])) [nam ($"abc")] Strict None = Ok log /\ log <> [].
Proof. eexists. split; [vm_compute; reflexivity|discriminate]. Qed.

(** * C122: [meta] without a list. Its first atom [x] (the handler, usually) is taken for the list. *)
Theorem C122_first_replaced_refuted : forall pre k1 u1 vers x f2 b0 u2 k2 post tag m padding I,
  let top := mp4_file pre k1 u1 (vers ++ encs (x :: f2 ++ b0)) u2 k2 post in
  tag_file pre k1 u1 vers (x :: f2 ++ b0) u2 k2 post -> none_named ($"ilst") (x :: f2 ++ b0) -> all_free f2 -> ~ starts_free b0 ->
  Forall (every (fun b => box_name b <> $"tfhd")) top -> Forall offsets_ok (k1 ++ u1 ++ u2 ++ k2) ->
  build_ilst tag = Ok I -> padding_ok padding -> lenN (encs top) + lenN I + max_pad padding < 2 ^ 32 ->
  exists kids' d upto, new_kids [] [] x f2 b0 I padding kids' d upto /\
    let from := meta_at pre k1 u1 + 8 + lenN vers in
    mp4_write (encs top) tag m padding
      = Ok [OpTrunc 0; OpWrite 0 (encs (mp4_file pre (shd d from k1) (shd d from u1) (vers ++ kids') (shd d from u2) (shd d from k2) post))].
Proof.
  intros pre k1 u1 vers x f2 b0 u2 k2 post tag m padding I top HT HN HF2 HB HTF HOF HI HP HL.
  pose proof HT as (_ & _ & _ & _ & _ & HK & _). apply Forall_cons_iff in HK. destruct HK as [_ HK]. apply Forall_app in HK. destruct HK as [HK _].
  destruct (new_kids_total [] [] x f2 b0 I padding) as (kids' & d & upto & NK); auto.
  { eapply Forall_impl; [|exact HK]; apply item_ok_hd. }
  exists kids', d, upto. split; [exact NK|]. cbv zeta.
  assert (UP : upto = []) by (destruct NK; reflexivity).
  pose proof (write_ok pre k1 u1 vers [] [] x f2 b0 u2 k2 post tag m padding I kids' d upto) as W. cbv zeta in W. cbn [app] in W. fold top in W. rewrite UP in W. change (encs []) with (@nil N) in W. rewrite app_nil_r in W.
  apply W; auto.
  - right. apply Forall_cons_iff in HN. destruct HN. auto.
  - constructor.
  - rewrite UP in NK. exact NK.
  - pose proof (new_kids_bound _ _ _ _ _ _ _ _ _ _ NK) as LB. cbn [app] in LB.
    assert (LT : moov_size k1 (udta_size u1 (8 + lenN (vers ++ encs (x :: f2 ++ b0))) u2) k2 <= lenN (encs top)).
    { unfold top. rewrite file_lay. unfold lay. rewrite !lenN_app, !be4_len. change (lenN ($"moov")) with 4. change (lenN ($"udta")) with 4. change (lenN ($"meta")) with 4.
      unfold moov_size, udta_size. lia. }
    unfold moov_size, udta_size in *. rewrite !lenN_app in *. lia.
Qed.
Print Assumptions C122_first_replaced_refuted.
Definition no_ilst_ex (kids : list box) : list box :=
  mp4_file [ftyp_ex] [leaf ($"mvhd") [9]] [] ([0; 0; 0; 0] ++ encs kids) [] [] [mdat_ex].
(** Removing the tag a second time removes the handler. *)
Example C122_ex :
  mp4_write (encs (no_ilst_ex [hdlr_ex; ilst_ex ($"ab")])) [] Strict None = Ok [OpTrunc 0; OpWrite 0 (encs (no_ilst_ex [hdlr_ex]))] /\
  mp4_write (encs (no_ilst_ex [hdlr_ex])) [] Strict None = Ok [OpTrunc 0; OpWrite 0 (encs (no_ilst_ex []))] /\
  mp4_write (encs (no_ilst_ex [hdlr_ex])) [nam ($"ab")] Strict None = Ok [OpTrunc 0; OpWrite 0 (encs (no_ilst_ex [ilst_ex ($"ab")]))].
Proof. vm_compute. auto. Qed.

(** * C123: a value of an unknown type set, and the item after it *)
Definition strange (set : N) (c : bytes) : bytes := sbox ($"data") (set :: c).
Theorem C123_swallowed_refuted : forall o id set c a f l b,
  is_strict (mo_mode o) = false -> box_id id -> id <> $"----" -> ~ In id SPECIAL -> 0 < set < 256 -> 7 <= lenN c -> 17 + lenN c < 2 ^ 32 ->
  at_ident a = Fourcc f -> f <> $"data" -> Forall atom_ok (a :: l) -> Forall (kept o) (a :: l) -> build_ilst (a :: l) = Ok b ->
  parse_ilst o (sbox id (strange set c) ++ flat_map item_box (a :: l)) = Ok l.
Proof.
  intros o id set c a f l b HM HI HD HS HST LC LB EA HND HA HK HB.
  assert (HA' : Forall (fun a => atom_ok a /\ Forall dbox_ok (map coded (at_data a)) /\ lenN (item_box a) < 2 ^ 32) (a :: l)).
  { unfold build_ilst in HB. destruct (write_items (a :: l)) as [wi| |] eqn:WI; cbn [bind] in HB; try discriminate. now apply (write_items_ok _ _ HA WI). }
  apply Forall_cons_iff in HA'. destruct HA' as [(A1 & A2 & A3) HL]. apply Forall_cons_iff in HK. destruct HK as [_ HK].
  set (x := sbox id (strange set c)). set (data := x ++ flat_map item_box (a :: l)).
  assert (IN : inside data (atom_reader data) (x ++ item_box a ++ flat_map item_box l)) by exact (inside_start data).
  assert (LST : lenN (strange set c) = 9 + lenN c) by (unfold strange; rewrite lenN_sbox by reflexivity; rewrite lenN_cons; lia).
  assert (LX : lenN x = 17 + lenN c) by (unfold x; rewrite lenN_sbox by apply HI; lia).
  assert (VA : vals a <> []).
  { unfold vals. destruct A1 as (_ & NE & _). destruct (at_data a); [congruence|]. cbn [map flat_map]. intros X. apply (f_equal (@lenN N)) in X. rewrite lenN_app, len_dbox in X. change (lenN []) with 0 in X. lia. }
  assert (HF : box_id f /\ f <> $"----") by (destruct A1 as (HO & _); rewrite EA in HO; exact HO). destruct HF as [HF HFD].
  assert (IA : item_box a = sbox f (vals a)) by (unfold item_box; rewrite EA; reflexivity).
  assert (LA : 24 <= lenN (item_box a)).
  { rewrite IA, lenN_sbox by apply HF. unfold vals in *. destruct (map coded (at_data a)); [contradiction VA; reflexivity|]. cbn [flat_map]. rewrite lenN_app, len_dbox. lia. }
  assert (NX : next data (mo_mode o) (atom_reader data) = Ok (Some (mkAi 0 (lenN x) false (Fourcc id)), adv 8 (atom_reader data))).
  { rewrite (inside_next _ _ _ _ _ _ IN) by (auto; lia). cbn [atom_reader r_pos]. do 3 f_equal. f_equal. lia. }
  pose proof (inside_body _ _ _ _ _ IN (proj1 HI)) as I8.
  assert (N2 : next data (mo_mode o) (adv 8 (atom_reader data)) = Ok (Some (mkAi 8 (9 + lenN c) false (Fourcc ($"data"))), adv 16 (atom_reader data))).
  { unfold strange in I8. rewrite (inside_next _ _ _ _ _ _ I8) by (first [idok | idne | rewrite lenN_cons; lia]). rewrite lenN_cons, adv_adv, adv_pos. cbn [atom_reader r_pos].
    do 3 f_equal. f_equal. lia. }
  unfold strange in I8. pose proof (inside_body _ _ _ _ _ I8 eq_refl) as I16. rewrite adv_adv in I16.
  assert (TI : type_indicator data (mo_mode o) (adv 16 (atom_reader data)) = Ok (None, adv 17 (atom_reader data))).
  { unfold type_indicator. assert (RD : rd_be_own data 1 (adv (8 + 8) (atom_reader data)) = Ok (set, adv 1 (adv (8 + 8) (atom_reader data)))).
    { eapply (rd_be_own_app _ _ 1); [|reflexivity|change (256 ^ 1) with 256; lia]. destruct I16 as [S _]. change (be_enc 1 set) with ([] ++ [set mod 256]). rewrite N.mod_small by lia. exact S. }
    change (8 + 8) with 16 in RD. rewrite RD. cbn [bind]. replace (set =? 0) with false by lia. cbn [negb]. rewrite HM, adv_adv. reflexivity. }
  assert (IA' : inside data (adv (lenN x) (atom_reader data)) (item_box a ++ flat_map item_box l)) by (eapply inside_adv; eauto).
  assert (N3 : next data (mo_mode o) (adv (lenN x) (atom_reader data)) = Ok (Some (mkAi (lenN x) (lenN (item_box a)) false (Fourcc f)), adv (lenN x + 8) (atom_reader data))).
  { rewrite IA in IA', A3 |- *. rewrite lenN_sbox in A3 by apply HF. rewrite (inside_next _ _ _ _ _ _ IA') by auto. rewrite adv_adv, adv_pos, lenN_sbox by apply HF. cbn [atom_reader r_pos].
    do 3 f_equal. }
  assert (PD : parse_data_inner data (mo_mode o) (mkAi 0 (lenN x) false (Fourcc id)) (adv 8 (atom_reader data)) = Ok ([], adv (lenN x + lenN (item_box a)) (atom_reader data))).
  { unfold parse_data_inner. cbn [a_start a_len]. rewrite adv_pos. cbn [atom_reader r_pos]. rewrite !N.add_0_l. replace (lenN x <? 8) with false by lia.
    assert (LD : (2 <= length data)%nat) by (unfold data; rewrite app_length; unfold lenN in LX; lia).
    assert (LF : exists n, length data = S (S n)) by (destruct (length data) as [|[|n]]; [lia|lia|eauto]). destruct LF as [n LF]. rewrite LF.
    cbn [data_loop]. replace (lenN x - 8 <=? 0) with false by lia. rewrite N2. cbn [bind a_len a_ident]. replace (9 + lenN c <? 16) with false by lia.
    rewrite is_fourcc_refl. cbn [negb]. rewrite TI. cbn [bind]. rewrite seek_adv. cbn [bind]. rewrite adv_adv.
    replace (lenN x - 8 <=? 0 + (9 + lenN c - 9)) with false by lia. replace (17 + (9 + lenN c - 9)) with (lenN x) by lia.
    rewrite N3. cbn [bind a_len a_ident a_ext]. replace (lenN (item_box a) <? 16) with false by lia. rewrite is_fourcc_neq by exact HND. cbn [negb]. rewrite HM.
    rewrite skip_box by lia. cbn [bind]. rewrite adv_adv. replace (lenN x - 8 <=? 0 + (9 + lenN c - 9) + lenN (item_box a)) with true by lia. do 3 f_equal. lia. }
  assert (NS : forall f, In f SPECIAL -> is_fourcc f (Fourcc id) = false).
  { intros g X. apply not_special; auto. intros f' [= <-]. exact HS. }
  assert (FL : existsb (fun f => is_fourcc f (Fourcc id)) FLAG_ATOMS = false).
  { destruct (existsb _ _) eqn:EX; auto. apply existsb_exists in EX. destruct EX as (g & FI & FE). rewrite NS in FE; [discriminate|]. unfold SPECIAL. apply in_or_app. right. exact FI. }
  unfold parse_ilst. cbn [ilst_loop]. rewrite NX. cbn [a_ident a_ext a_len].
  rewrite (NS ($"free")), (NS ($"skip")), (NS ($"covr")), (NS ($"gnre")), (NS ($"plID")) by (cbn; auto 10). cbn [orb].
  rewrite FL. unfold parse_data. rewrite PD. cbn [bind].
  rewrite (ilst_loop_ok _ _ l); auto.
  - rewrite <- adv_adv. eapply inside_adv; eauto.
  - assert (N.of_nat (length l) <= lenN (flat_map item_box l)).
    { apply item_boxes_count. eapply Forall_impl; [|exact HL]. intros y ((? & _) & _). auto. }
    unfold data. cbn [flat_map]. rewrite !app_length. unfold lenN in *. lia.
Qed.
Print Assumptions C123_swallowed_refuted.
Example C123_ex :
  parse_ilst (mkMo BestAttempt true true true true) (sbox ($"xxxx") (strange 1 [0; 0; 1; 0; 0; 0; 0; 65]) ++ item_box (nam ($"lost")) ++ item_box (mkAtom (Fourcc (0xA9 :: $"alb")) [AUtf8 ($"kept")]))
    = Ok [mkAtom (Fourcc (0xA9 :: $"alb")) [AUtf8 ($"kept")]].
Proof. vm_compute. reflexivity. Qed.

(** * C124: the tag of the file is the one in [moov] / [udta]. Refuted: what follows [mdia] in a track is taken for it. *)
Definition track_tag_ex (s : str) : list box :=
  [ftyp_ex; node ($"moov") [leaf ($"mvhd") [9]; node ($"trak") [node ($"mdia") []; node ($"udta") [leaf ($"meta") ([0; 0; 0; 0] ++ encs [hdlr_ex; ilst_ex s])]]]; mdat_ex].
Theorem C124_track_tag_refuted : exists top, boxes_ok top /\ ftyp_first top /\
  (forall b, In b top -> box_name b = $"moov" -> exists s ks, b = Node s ($"moov") ks /\ none_named ($"udta") ks) /\
  (exists brand traks tag, mp4_read (encs top) (mkMo Strict true true true true) = Ok (brand, traks, Some tag) /\ tag = [nam ($"track")]) /\
  (exists brand traks, mp4_read (encs top) (mkMo Strict true false true true) = Ok (brand, traks, None)).
Proof.
  exists (track_tag_ex ($"track")). split; [apply boxesb_ok; reflexivity|]. split.
  { split; [reflexivity|]. exists ($"M4A "), ($"M4A "), [0; 0; 2; 0]. split; [reflexivity|]. split; [reflexivity|]. split; [repeat constructor; unfold scalar; lia|reflexivity]. }
  split.
  { intros b [<-|[<-|[<-|[]]]] E; try discriminate E. eexists _, _. split; [reflexivity|]. repeat constructor; discriminate. }
  split; [eexists _, _, _; split; [vm_compute; reflexivity|reflexivity]|eexists _, _; vm_compute; reflexivity].
Qed.
Print Assumptions C124_track_tag_refuted.
Example C124_ex : mp4_read (encs (track_tag_ex ($"track"))) (mkMo Strict true false true true) = Ok ($"M4A ", [], None).
Proof. vm_compute. reflexivity. Qed.
