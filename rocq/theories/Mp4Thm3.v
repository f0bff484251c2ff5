From Verif Require Import Base BaseLemmas Str StrLemmas TextModel TextSpec TextProof Mode PictureModel FileModel Mp4Model Mp4WriteModel Mp4Spec Mp4Proof Mp4Proof2 Mp4Proof3 Mp4Proof4 Mp4Proof5 Mp4Proof6 Mp4Proof7 Mp4Proof8 Mp4Proof9 Mp4Ex Mp4Thm2.

(** * C119: removing a tag *)
Theorem C119_removed : forall pre k1 u1 vers a0 f1 old f2 b0 u2 k2 post m padding o,
  saveable pre k1 u1 vers a0 f1 old f2 b0 u2 k2 post -> padding_ok padding ->
  let top := mp4_file pre k1 u1 (vers ++ encs (a0 ++ f1 ++ old :: f2 ++ b0)) u2 k2 post in
  lenN (encs top) + max_pad padding < 2 ^ 32 -> readable o k1 u1 a0 b0 u2 k2 -> a0 <> [] ->
  let d := (- Z.of_N (lenN (enc old)))%Z in
  let from := meta_at pre k1 u1 + 8 + lenN (vers ++ encs (a0 ++ f1)) in
  let new := mp4_file pre (sh d from k1) (sh d from u1) (vers ++ encs (a0 ++ f1 ++ f2 ++ b0)) (sh d from u2) (sh d from k2) post in
  mp4_write (encs top) [] m padding = Ok [OpTrunc 0; OpWrite 0 (encs new)] /\
  exists brand traks, mp4_read (encs new) o = Ok (brand, traks, None).
Proof.
  intros pre k1 u1 vers a0 f1 old f2 b0 u2 k2 post m padding o HS HP top HL (R1 & R2 & R3 & R4 & R5) NA0 d from new.
  assert (HL' : lenN (encs top) + lenN (@nil N) + max_pad padding < 2 ^ 32) by (change (lenN (@nil N)) with 0; lia).
  destruct (C116_saved _ _ _ _ _ _ _ _ _ _ _ _ [] m padding [] HS eq_refl HP HL') as (kids' & d' & upto & HK & HW). cbv zeta in HW. fold top in HW.
  pose proof (saveable_f2 _ _ _ _ _ _ _ _ _ _ _ _ HS) as (I1 & I2 & I3 & I4 & I5). pose proof HS as ((HO & HFT & N1 & N2 & N3 & HIK & HMF) & HTF & HOF & HOLD & HN & F1 & F2 & NA & NB).
  assert (D0 : (d =? 0)%Z = false).
  { unfold d. apply item_ok_hd in I3. destruct I3 as (_ & _ & _ & L & _). apply Z.eqb_neq. lia. }
  inversion HK; subst; try congruence. fold d in HW. fold from in HW. unfold shd in HW. rewrite D0 in HW.
  rewrite <- !encs_app in HW. fold new in HW. split; [exact HW|].
  pose proof (shd_sound _ _ _ _ _ _ _ HO HOF) as SO. rewrite !Forall_app in SO. destruct SO as (S1 & S2 & S3 & S4).
  pose proof (file_parts _ _ _ _ _ _ _ HO) as PARTS. cbv zeta in PARTS. destruct PARTS as (P1 & P2 & P3 & P4 & P5 & P6 & PU & PM & LS & LU & LM & PMV).
  assert (SHD : forall l, sh d from l = shd d from l) by (intros; unfold shd; rewrite D0; reflexivity).
  apply Forall_app in R5. destruct R5 as [R5 R6].
  destruct (read_none o pre (sh d from k1) (sh d from u1) vers (a0 ++ f1 ++ f2 ++ b0) (sh d from u2) (sh d from k2) post R1) as (brand & tr & ER).
  - rewrite !SHD. repeat split.
    + apply file_ok; auto using shd_ok. unfold moov_size, udta_size in *. rewrite !shd_len by auto. rewrite !lenN_app in *.
      rewrite !encs_app in LS. rewrite encs_cons, encs_app, !lenN_app in LS. rewrite !encs_app, !lenN_app. lia.
    + eapply ftyp_pre; eauto.
    + exact N1.
    + rewrite <- shd_app. apply shd_named. unfold none_named in *. apply Forall_app; auto.
    + now apply shd_named.
    + rewrite !Forall_app. tauto.
    + destruct HMF as [HMS _]. destruct a0 as [|x a0]; [contradiction|]. exact HMS.
    + rewrite <- shd_app. now apply shd_quiet.
    + now apply shd_boring.
  - assert (FN : forall l, all_free l -> none_named ($"ilst") l) by (intros l HF0; eapply Forall_impl; [|exact HF0]; intros x X; cbn in X; rewrite X; discriminate).
    unfold none_named in *. rewrite !Forall_app in *. repeat split; auto; try tauto; now apply FN.
  - exists brand, tr. exact ER.
Qed.

(** * C118: a file without a tag *)
Definition bare (pre ks post : list box) : list box := pre ++ [node ($"moov") ks] ++ post.
(** the handler atom of a new tag *)
Definition HDLR : box := leaf ($"hdlr") (repeat 0 8 ++ $"mdirappl" ++ repeat 0 9).
Definition new_meta (I : bytes) : bytes := [0; 0; 0; 0] ++ enc HDLR ++ I.
Lemma create_meta_ok : forall I, 45 + lenN I < 2 ^ 32 -> create_meta I = Ok (enc (leaf ($"meta") (new_meta I))).
Proof.
  intros I L. unfold create_meta. cbv zeta. replace (U32_MAX <? 12 + 33 + lenN I) with false by (unfold U32_MAX; lia).
  unfold leaf. cbn [enc]. unfold new_meta at 1. rewrite !lenN_app. change (lenN [0; 0; 0; 0]) with 4. change (lenN (enc HDLR)) with 33.
  replace (8 + (4 + (33 + lenN I))) with (12 + 33 + lenN I) by lia. do 3 f_equal.
Qed.
Lemma bare_moov : forall pre ks post tag m padding I, boxes_ok (bare pre ks post) -> ftyp_first (bare pre ks post) -> none_named ($"moov") pre ->
  build_ilst tag = Ok I ->
  let S := 8 + lenN (encs ks) in let data := encs (bare pre ks post) in
  mp4_write data tag m padding =
      let finish (v : bytes) (old new : N) : res mp4_error (list fop) :=
        let? n := msub S old in
        let? v := write_size (moov_at pre) (n + new) v in
        Ok [OpTrunc 0; OpWrite 0 v] in
      let? (udta, r) := find_child (Datatypes.S (length data)) data S ($"udta") m (cursor (moov_at pre + 8)) in
      match udta with
      | None =>
          if match I with [] => true | _ => false end then Ok [] else
          let? u := create_udta I in
          let? v := splice (moov_at pre + 8) (moov_at pre + 8) u data in
          finish v 0 (lenN u)
      | Some udta =>
          let? (meta, r) := find_child (Datatypes.S (length data)) data (a_len udta) ($"meta") m r in
          match meta with
          | None =>
              if match I with [] => true | _ => false end then Ok [] else
              let? new := create_meta I in
              let? v := write_size (a_start udta) (a_len udta + lenN new) data in
              let? v := splice (a_start udta + 8) (a_start udta + 8) new v in
              finish v (a_len udta) (a_len udta + lenN new)
          | Some meta =>
              let? (_f, r) := meta_is_full data r in
              let? (v, u) := save_to_existing (cats 0 (bare pre ks post)) (cat (moov_at pre) (node ($"moov") ks)) meta udta I m padding data r in
              finish v (a_len udta) u
          end
      end.
Proof.
  intros pre ks post tag m padding I HO HF HN HI S data. unfold mp4_write. destruct (verify_ok _ m HO HF) as (b & l & s & EB & V).
  fold data in V. rewrite V. cbn [bind]. unfold data at 1. rewrite read_atoms_ok by auto. cbn [bind].
  pose proof (find_top_found ($"moov") pre (node ($"moov") ks) post 0 HN eq_refl) as FT. change (pre ++ node ($"moov") ks :: post) with (bare pre ks post) in FT.
  rewrite FT. rewrite cat_info. unfold header_size. cbn [a_ext a_start a_len].
  rewrite node_len by reflexivity. rewrite HI. cbn [bind]. rewrite N.add_0_l. reflexivity.
Qed.
Lemma bare_parts : forall pre ks post, boxes_ok (bare pre ks post) -> boxes_ok pre /\ boxes_ok ks /\ boxes_ok post /\ 8 + lenN (encs ks) < 2 ^ 32.
Proof.
  intros pre ks post H. unfold bare, boxes_ok in H. rewrite !Forall_app in H. destruct H as (H1 & H2 & H3). inversion H2; subst. unfold node in H4. apply box_ok_node in H4. destruct H4 as (_ & L & _ & K). auto.
Qed.
Lemma sees_bare : forall pre ks post, sees (encs (bare pre ks post)) (cursor (moov_at pre + 8)) (encs ks ++ encs post).
Proof.
  intros. unfold sees, bare. cbn [cursor r_pos]. rewrite !encs_app, encs_one. unfold node. cbn [enc]. fold (encs ks).
  set (s := be_enc 4 (8 + lenN (encs ks))). assert (LS : lenN s = 4) by apply be4_len.
  replace (encs pre ++ (s ++ $"moov" ++ encs ks) ++ encs post) with ((encs pre ++ s ++ $"moov") ++ encs ks ++ encs post) by (now rewrite <- !app_assoc).
  apply dropN_app. rewrite !lenN_app, LS. change (lenN ($"moov")) with 4. unfold moov_at. lia.
Qed.
(** No [udta]: one is added at the start of [moov]; nothing else changes, the offset tables included *)
Theorem C118_udta_added : forall pre ks post tag m padding I,
  boxes_ok (bare pre ks post) -> ftyp_first (bare pre ks post) -> none_named ($"moov") pre -> none_named ($"udta") ks ->
  build_ilst tag = Ok I -> I <> [] -> lenN (encs ks) + lenN I + 61 < 2 ^ 32 ->
  mp4_write (encs (bare pre ks post)) tag m padding = Ok [OpTrunc 0; OpWrite 0 (encs (mp4_file pre [] [] (new_meta I) [] ks post))].
Proof.
  intros pre ks post tag m padding I HO HF HN HU HI NE HL. rewrite (bare_moov pre ks post tag m padding I HO HF HN HI). cbv zeta.
  destruct (bare_parts _ _ _ HO) as (P1 & P2 & P3 & P4). pose proof (sees_bare pre ks post) as SB. pose proof (Forall_hd _ P2) as HK.
  replace (8 + lenN (encs ks)) with (lenN (encs ks) + 8) at 1 by lia.
  rewrite (find_child_none _ m ($"udta") ks _ _ _ SB HK HU) by first [apply unbounded_avail; reflexivity | eapply fuel_ok; eauto].
  cbn [bind]. destruct I as [|i0 I0]; [congruence|]. set (I := i0 :: I0) in *. cbv iota.
  assert (LM : lenN (new_meta I) = 37 + lenN I) by (unfold new_meta; rewrite !lenN_app; change (lenN [0; 0; 0; 0]) with 4; change (lenN (enc HDLR)) with 33; lia).
  unfold create_udta. rewrite create_meta_ok by lia. cbn [bind]. unfold atom_bytes. cbv zeta. rewrite leaf_len by reflexivity.
  replace (U32_MAX <? 8 + (8 + lenN (new_meta I))) with false by (unfold U32_MAX; lia). cbn [bind].
  set (u := be_enc 4 (8 + (8 + lenN (new_meta I))) ++ $"udta" ++ enc (leaf ($"meta") (new_meta I))).
  assert (LU : lenN u = 53 + lenN I) by (unfold u; rewrite !lenN_app, be4_len, leaf_len by reflexivity; change (lenN ($"udta")) with 4; lia).
  set (s := be_enc 4 (8 + lenN (encs ks))). assert (LS : lenN s = 4) by apply be4_len.
  assert (ED : encs (bare pre ks post) = (encs pre ++ s ++ $"moov") ++ [] ++ encs ks ++ encs post).
  { unfold bare. rewrite !encs_app, encs_one. unfold node. cbn [enc]. fold (encs ks). fold s. now rewrite <- !app_assoc. }
  assert (LP : lenN (encs pre ++ s ++ $"moov") = moov_at pre + 8) by (rewrite !lenN_app, LS; change (lenN ($"moov")) with 4; unfold moov_at; lia).
  rewrite ED. rewrite <- LP. pose proof (splice_mid (encs pre ++ s ++ $"moov") [] (encs ks ++ encs post) u) as SM. change (lenN (@nil N)) with 0 in SM. rewrite N.add_0_r in SM. rewrite SM. cbn [bind].
  unfold msub. replace (8 + lenN (encs ks) <? 0) with false by lia. cbn [bind]. unfold write_size. rewrite LU.
  replace (U32_MAX <? 8 + lenN (encs ks) - 0 + (53 + lenN I)) with false by (unfold U32_MAX; lia). cbn [bind]. unfold moov_at.
  rewrite <- !app_assoc. rewrite write_inside by (rewrite !be4_len; exact LS). do 4 f_equal. rewrite file_lay. unfold lay, moov_size, udta_size.
  change (encs []) with (@nil N). change (lenN (@nil N)) with 0. rewrite !N.add_0_l, N.add_0_r. cbn [app]. unfold u, leaf. cbn [enc]. rewrite <- !app_assoc. rewrite LM.
  replace (8 + lenN (encs ks) - 0 + (53 + lenN I)) with (8 + (8 + (8 + (37 + lenN I)) + lenN (encs ks))) by lia. reflexivity.
Qed.
Theorem C118_udta_read_back : forall pre ks post tag m padding I o,
  boxes_ok (bare pre ks post) -> ftyp_first (bare pre ks post) -> none_named ($"moov") pre -> none_named ($"udta") ks ->
  build_ilst tag = Ok I -> Forall atom_ok tag -> tag <> [] -> lenN (encs ks) + lenN I + 61 < 2 ^ 32 ->
  Forall (kept o) tag -> mo_tags o = true -> quiet o ks ->
  exists log brand traks, mp4_write (encs (bare pre ks post)) tag m padding = Ok log /\
    mp4_read (apply_log (encs (bare pre ks post)) log) o = Ok (brand, traks, Some tag).
Proof.
  intros pre ks post tag m padding I o HO HF HN HU HI HA HT HL HKE R1 HQ.
  destruct (build_ilst_ok tag I HA HI) as [[E _]|(_ & EI & LI & PI)]; [contradiction|].
  assert (LE : lenN I = 8 + lenN (flat_map item_box tag)) by (rewrite EI; apply leaf_len; reflexivity).
  destruct (bare_parts _ _ _ HO) as (P1 & P2 & P3 & P4).
  assert (EQ : new_meta I = [0; 0; 0; 0] ++ encs ([HDLR] ++ leaf ($"ilst") (flat_map item_box tag) :: [])).
  { unfold new_meta. rewrite encs_app, encs_one, encs_one, <- EI. reflexivity. }
  destruct (read_tag o pre [] [] [0; 0; 0; 0] [HDLR] (8 + lenN (flat_map item_box tag)) (flat_map item_box tag) [] [] ks post R1) as (brand & tr & ER).
  - repeat split.
    + fold (leaf ($"ilst") (flat_map item_box tag)). rewrite <- EQ. apply file_ok; auto; try constructor. unfold moov_size, udta_size. change (lenN (encs [])) with 0.
      unfold new_meta. rewrite !lenN_app. change (lenN [0; 0; 0; 0]) with 4. change (lenN (enc HDLR)) with 33. lia.
    + destruct pre as [|b pre]; [contradiction|]. exact HF.
    + exact HN.
    + exact HU.
    + constructor.
    + constructor; [|constructor; [|constructor]].
      * split; [reflexivity|]. split; [vm_compute; congruence|]. split; [idok|idne].
      * split; [reflexivity|]. split; [exact LI|]. split; [idok|idne].
    + cbn [app meta_start]. right. split; [reflexivity|]. vm_compute. intuition discriminate.
    + exact HQ.
    + constructor.
  - repeat constructor. cbn. discriminate.
  - constructor.
  - eexists _, brand, tr. split.
    + eapply C118_udta_added; eauto. intros E. rewrite E in LE. change (lenN (@nil N)) with 0 in LE. lia.
    + rewrite rewritten, EQ. unfold leaf. rewrite ER, PI by auto. reflexivity.
Qed.
(** The data behind [moov] moves, the offsets to it stay. *)
Theorem C118_offsets_refuted : forall pre ks post tag m padding I,
  boxes_ok (bare pre ks post) -> ftyp_first (bare pre ks post) -> none_named ($"moov") pre -> none_named ($"udta") ks ->
  build_ilst tag = Ok I -> I <> [] -> lenN (encs ks) + lenN I + 61 < 2 ^ 32 ->
  exists new, mp4_write (encs (bare pre ks post)) tag m padding = Ok [OpTrunc 0; OpWrite 0 (encs new)] /\
    new = pre ++ [node ($"moov") (node ($"udta") [leaf ($"meta") (new_meta I)] :: ks)] ++ post /\
    forall j, j <= lenN (encs post) -> let o := lenN (encs (bare pre ks post)) - lenN (encs post) + j in
      dropN (o + 53 + lenN I) (encs new) = dropN o (encs (bare pre ks post)).
Proof.
  intros pre ks post tag m padding I HO HF HN HU HI NE HL. eexists. split; [eapply C118_udta_added; eauto|]. split; [reflexivity|]. intros j HJ. cbv zeta.
  unfold mp4_file, bare. cbn [app]. rewrite !encs_app, !encs_cons, !lenN_app.
  assert (LN : lenN (enc (node ($"moov") (node ($"udta") [leaf ($"meta") (new_meta I)] :: ks))) = lenN (enc (node ($"moov") ks)) + 53 + lenN I).
  { rewrite !node_len by reflexivity. rewrite encs_cons, lenN_app, node_len by reflexivity. rewrite encs_one, leaf_len by reflexivity.
    unfold new_meta. rewrite !lenN_app. change (lenN [0; 0; 0; 0]) with 4. change (lenN (enc HDLR)) with 33. lia. }
  set (x := enc (node ($"moov") (node ($"udta") [leaf ($"meta") (new_meta I)] :: ks))) in *. set (y := enc (node ($"moov") ks)) in *.
  rewrite !app_assoc. set (P := encs pre ++ x). set (Q := encs pre ++ y).
  replace (lenN (encs pre) + (lenN y + lenN (encs post)) - lenN (encs post) + j + 53 + lenN I) with (lenN P + j) by (unfold P; rewrite lenN_app; lia).
  replace (lenN (encs pre) + (lenN y + lenN (encs post)) - lenN (encs post) + j) with (lenN Q + j) by (unfold Q; rewrite lenN_app; lia).
  rewrite <- !dropN_dropN. now rewrite !dropN_app by reflexivity.
Qed.
(** [udta] without [meta]: one is added at its start *)
Theorem C118_meta_added : forall pre k1 us k2 post tag m padding I,
  let top := bare pre (k1 ++ [node ($"udta") us] ++ k2) post in
  boxes_ok top -> ftyp_first top -> none_named ($"moov") pre -> none_named ($"udta") k1 -> none_named ($"meta") us ->
  build_ilst tag = Ok I -> I <> [] -> lenN (encs k1) + lenN (encs us) + lenN (encs k2) + lenN I + 61 < 2 ^ 32 ->
  mp4_write (encs top) tag m padding = Ok [OpTrunc 0; OpWrite 0 (encs (mp4_file pre k1 [] (new_meta I) us k2 post))].
Proof.
  intros pre k1 us k2 post tag m padding I top HO HF HN HU HM HI NE HL. unfold top. rewrite (bare_moov pre _ post tag m padding I HO HF HN HI). cbv zeta.
  set (U := 8 + lenN (encs us)). assert (LU : lenN (enc (node ($"udta") us)) = U) by (apply node_len; reflexivity).
  set (ks := k1 ++ [node ($"udta") us] ++ k2) in *. assert (LK : lenN (encs ks) = lenN (encs k1) + U + lenN (encs k2)) by (unfold ks; rewrite !encs_app, encs_one, !lenN_app, LU; lia).
  destruct (bare_parts _ _ _ HO) as (P1 & P2 & P3 & P4). pose proof (sees_bare pre ks post) as SB. pose proof P2 as P2'. unfold ks, boxes_ok in P2'. rewrite !Forall_app in P2'. destruct P2' as (K1 & K2 & K3).
  inversion K2 as [|? ? KU _]; subst. pose proof (box_ok_hd _ KU) as HDU. apply box_ok_node in KU. destruct KU as (_ & LUU & _ & KU).
  assert (SB1 : sees (encs (bare pre ks post)) (cursor (moov_at pre + 8)) (encs k1 ++ enc (node ($"udta") us) ++ encs k2 ++ encs post)).
  { unfold ks in SB at 2. rewrite !encs_app, encs_one, <- !app_assoc in SB. exact SB. }
  rewrite (find_child_found (encs (bare pre ks post)) m ($"udta") k1 (node ($"udta") us) (lenN (encs k2) + 8)) with (rest := encs k2 ++ encs post); auto.
  2: now apply Forall_hd. 2: rewrite LU, LK; lia. 2: unfold U in LU; lia.
  2: eapply Forall_impl; [|apply Forall_hd; exact K1]; intros x (_ & _ & _ & X & _); lia.
  2: apply unbounded_avail; reflexivity. 2: eapply fuel_ok; [exact SB1|now apply Forall_hd].
  rewrite LU. cbn [bind cursor r_pos a_len a_start]. rewrite adv_cursor.
  assert (SB2 : sees (encs (bare pre ks post)) (cursor (moov_at pre + 8 + (lenN (encs k1) + 8))) (encs us ++ encs k2 ++ encs post)).
  { rewrite <- adv_cursor. unfold node in SB1. cbn [enc] in SB1. fold (encs us) in SB1. eapply sees_adv with (a := encs k1 ++ be_enc 4 (8 + lenN (encs us)) ++ $"udta").
    - rewrite <- !app_assoc in *. exact SB1.
    - rewrite !lenN_app, be4_len. change (lenN ($"udta")) with 4. lia. }
  replace U with (lenN (encs us) + 8) at 1 by (unfold U; lia).
  rewrite (find_child_none _ m ($"meta") us _ _ _ SB2 (Forall_hd _ KU) HM) by first [apply unbounded_avail; reflexivity | eapply fuel_ok; [exact SB2|now apply Forall_hd]].
  cbn [bind]. destruct I as [|i0 I0]; [congruence|]. set (I := i0 :: I0) in *. cbv iota.
  assert (LM : lenN (new_meta I) = 37 + lenN I) by (unfold new_meta; rewrite !lenN_app; change (lenN [0; 0; 0; 0]) with 4; change (lenN (enc HDLR)) with 33; lia).
  rewrite create_meta_ok by lia. cbn [bind]. rewrite leaf_len by reflexivity.
  set (s := be_enc 4 (8 + lenN (encs ks))). assert (LS : lenN s = 4) by apply be4_len.
  assert (ED : encs (bare pre ks post) = (encs pre ++ s ++ $"moov" ++ encs k1) ++ be_enc 4 U ++ $"udta" ++ encs us ++ encs k2 ++ encs post).
  { unfold bare. rewrite !encs_app, encs_one. unfold node at 1. cbn [enc]. fold (encs ks). fold s. unfold ks. rewrite !encs_app, encs_one. unfold node. cbn [enc]. fold (encs us). fold U. now rewrite <- !app_assoc. }
  assert (LP : lenN (encs pre ++ s ++ $"moov" ++ encs k1) = moov_at pre + 8 + lenN (encs k1)) by (rewrite !lenN_app, LS; change (lenN ($"moov")) with 4; unfold moov_at; lia).
  rewrite ED, <- LP. unfold write_size at 1. replace (U32_MAX <? U + (8 + lenN (new_meta I))) with false by (unfold U32_MAX, U; lia). cbn [bind].
  rewrite write_inside by now rewrite !be4_len.
  set (u := be_enc 4 (U + (8 + lenN (new_meta I)))). assert (LU4 : lenN u = 4) by apply be4_len.
  set (P := encs pre ++ s ++ $"moov" ++ encs k1) in *.
  replace (P ++ u ++ $"udta" ++ encs us ++ encs k2 ++ encs post) with ((P ++ u ++ $"udta") ++ [] ++ encs us ++ encs k2 ++ encs post) by (now rewrite <- !app_assoc).
  assert (LPU : lenN (P ++ u ++ $"udta") = lenN P + 8) by (rewrite !lenN_app, LU4; change (lenN ($"udta")) with 4; lia).
  pose proof (splice_mid (P ++ u ++ $"udta") [] (encs us ++ encs k2 ++ encs post) (enc (leaf ($"meta") (new_meta I)))) as SM. change (lenN (@nil N)) with 0 in SM. rewrite N.add_0_r, LPU in SM. rewrite SM. cbn [bind].
  unfold msub. replace (8 + lenN (encs ks) <? U) with false by (rewrite LK; lia). cbn [bind]. unfold write_size.
  replace (U32_MAX <? 8 + lenN (encs ks) - U + (U + (8 + lenN (new_meta I)))) with false by (unfold U32_MAX; rewrite LK; unfold U in *; lia). cbn [bind]. unfold moov_at, P.
  rewrite <- !app_assoc. rewrite write_inside by (rewrite !be4_len; exact LS). do 4 f_equal. rewrite file_lay. unfold lay, moov_size, udta_size.
  change (encs []) with (@nil N). change (lenN (@nil N)) with 0. rewrite !N.add_0_l. cbn [app]. unfold u, leaf. cbn [enc]. rewrite <- !app_assoc.
  replace (8 + lenN (encs ks) - U + (U + (8 + lenN (new_meta I)))) with (8 + (lenN (encs k1) + (8 + (8 + lenN (new_meta I) + lenN (encs us))) + lenN (encs k2))) by (rewrite LK; unfold U; lia).
  replace (U + (8 + lenN (new_meta I))) with (8 + (8 + lenN (new_meta I) + lenN (encs us))) by (unfold U; lia). reflexivity.
Qed.
Print Assumptions C118_udta_added.
Print Assumptions C118_udta_read_back.
Print Assumptions C118_offsets_refuted.
Print Assumptions C118_meta_added.
Print Assumptions C119_removed.
Example C119_ex :
  mp4_write (encs (file_ex [219] ($"ab") [free_ex 4])) [] Strict (Some 16)
    = Ok [OpTrunc 0; OpWrite 0 (encs (mp4_file [ftyp_ex] [leaf ($"mvhd") [9]; trak_ex (stco_ex [185])] [] ([0; 0; 0; 0] ++ encs [hdlr_ex; free_ex 4]) [] [] [mdat_ex]))].
Proof. vm_compute. reflexivity. Qed.
(** The chunk at 120 moves to 207, but the table still says 120. *)
Example C118_ex :
  mp4_write (encs (bare [ftyp_ex] [leaf ($"mvhd") [9]; trak_ex (stco_ex [120])] [mdat_ex])) [nam ($"ab")] Strict None
    = Ok [OpTrunc 0; OpWrite 0 (encs (mp4_file [ftyp_ex] [] [] (new_meta (enc (ilst_ex ($"ab")))) [] [leaf ($"mvhd") [9]; trak_ex (stco_ex [120])] [mdat_ex]))] /\
  dropN 120 (encs (bare [ftyp_ex] [leaf ($"mvhd") [9]; trak_ex (stco_ex [120])] [mdat_ex])) = [100; 101; 102; 103; 104] /\
  dropN 207 (encs (mp4_file [ftyp_ex] [] [] (new_meta (enc (ilst_ex ($"ab")))) [] [leaf ($"mvhd") [9]; trak_ex (stco_ex [120])] [mdat_ex])) = [100; 101; 102; 103; 104].
Proof. vm_compute. auto. Qed.
Example C118_meta_ex :
  mp4_write (encs (bare [ftyp_ex] [node ($"udta") [leaf ($"name") [1]]] [mdat_ex])) [nam ($"ab")] Strict None
    = Ok [OpTrunc 0; OpWrite 0 (encs (mp4_file [ftyp_ex] [] [] (new_meta (enc (ilst_ex ($"ab")))) [leaf ($"name") [1]] [] [mdat_ex]))].
Proof. vm_compute. reflexivity. Qed.
