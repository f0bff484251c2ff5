From Verif Require Import Base BaseLemmas Str StrLemmas TextModel TextSpec TextProof Mode PictureModel FileModel Mp4Model Mp4WriteModel Mp4Spec Mp4Proof Mp4Proof3 Mp4Proof4 Mp4Proof5 Mp4Proof6.

(** ** Saving to a file that has a tag *)
Lemma adv_cursor : forall n p, adv n (cursor p) = cursor (p + n).
Proof. reflexivity. Qed.
Lemma verify_ok : forall top m, boxes_ok top -> ftyp_first top ->
  exists b l s, top = b :: l /\ verify_mp4 (encs top) m (atom_reader (encs top)) = Ok (s, adv (lenN (enc b)) (atom_reader (encs top))).
Proof.
  intros top m HO HF. destruct top as [|[sz id c|] l]; try contradiction. cbn [ftyp_first] in HF. destruct HF as (-> & brand & s & rest & -> & HL & HS & HU).
  inversion HO as [|? ? HB _]; subst. cbn [box_ok] in HB. destruct HB as (-> & HB & HI & HD & _).
  exists (Leaf (8 + lenN (utf8_enc s ++ rest)) ($"ftyp") (utf8_enc s ++ rest)), l, (trim_end_nulls s). split; [reflexivity|].
  set (data := encs (Leaf (8 + lenN (utf8_enc s ++ rest)) ($"ftyp") (utf8_enc s ++ rest) :: l)).
  clear HI HD. assert (HI : box_id ($"ftyp")) by idok. assert (HD : $"ftyp" <> $"----") by idne.
  assert (IN : inside data (atom_reader data) (sbox ($"ftyp") (utf8_enc s ++ rest) ++ encs l)) by exact (inside_start data).
  unfold verify_mp4. rewrite (inside_next _ _ _ _ _ m IN HI HD HB). cbn [bind a_ident a_len]. rewrite is_fourcc_refl. cbn [negb].
  rewrite lenN_app, HL. replace (8 + (4 + lenN rest) <? 12) with false by lia.
  apply inside_body in IN; [|reflexivity]. rewrite <- app_assoc in IN.
  pose proof (rd_inside _ _ _ _ IN) as RD. rewrite HL in RD. rewrite RD. cbn [bind].
  replace (8 + (4 + lenN rest) - 12) with (lenN rest) by lia. rewrite seek_adv. cbn [bind]. unfold utf8_decode. rewrite utf8_dec_enc by auto.
  rewrite !adv_adv. cbn [enc]. rewrite lenN_hd, lenN_app, HL by reflexivity. replace (8 + 4 + lenN rest) with (8 + (4 + lenN rest)) by lia. reflexivity.
Qed.
Lemma find_top_found : forall f a b c pos, none_named f a -> box_name b = f -> find_top f (cats pos (a ++ b :: c)) = Some (cat (pos + lenN (encs a)) b).
Proof.
  unfold find_top. intros f a b c. induction a as [|x a IH]; intros pos HN HB; cbn [app cats find].
  - rewrite cat_info. cbn [a_ident]. rewrite HB, is_fourcc_refl, N.add_0_r. reflexivity.
  - inversion HN; subst. rewrite cat_info. cbn [a_ident]. rewrite is_fourcc_neq by auto. rewrite IH by auto. rewrite encs_cons, lenN_app, N.add_assoc. reflexivity.
Qed.
Lemma leaf_len : forall id c, lenN id = 4 -> lenN (enc (leaf id c)) = 8 + lenN c.
Proof. intros. unfold leaf. cbn [enc]. now apply lenN_hd. Qed.
Lemma node_len : forall id ks, lenN id = 4 -> lenN (enc (node id ks)) = 8 + lenN (encs ks).
Proof. intros. unfold node. cbn [enc]. now apply lenN_hd. Qed.
Lemma file_tree : forall pre k1 u1 meta u2 k2 post,
  let M := 8 + lenN meta in let U := udta_size u1 M u2 in
  mp4_file pre k1 u1 meta u2 k2 post = pre ++ [Node (moov_size k1 U k2) ($"moov") (moov_kids k1 U u1 M meta u2 k2)] ++ post.
Proof.
  intros. unfold mp4_file. do 2 f_equal. unfold node at 1. unfold moov_kids, udta_box, node.
  assert (E : 8 + lenN (encs (u1 ++ [leaf ($"meta") meta] ++ u2)) = U).
  { unfold U, udta_size. rewrite !encs_app, encs_one, !lenN_app, leaf_len by reflexivity. unfold M. lia. }
  rewrite E. unfold leaf. fold M. do 2 f_equal. rewrite !encs_app, encs_one, !lenN_app. unfold moov_size.
  cbn [enc]. fold (encs (u1 ++ [Leaf M ($"meta") meta] ++ u2)). rewrite lenN_hd by reflexivity. rewrite <- E. unfold leaf. fold M. lia.
Qed.
Lemma file_lay : forall pre k1 u1 meta u2 k2 post,
  encs (mp4_file pre k1 u1 meta u2 k2 post) =
    lay pre (moov_size k1 (udta_size u1 (8 + lenN meta) u2) k2) k1 (udta_size u1 (8 + lenN meta) u2) u1 (8 + lenN meta) meta u2 k2 post.
Proof. intros. rewrite file_tree, lay_tree. reflexivity. Qed.
Lemma Forall_hd : forall l, boxes_ok l -> Forall hd_ok l.
Proof. intros. eapply Forall_impl; [|exact H]. apply box_ok_hd. Qed.
Lemma file_parts : forall pre k1 u1 meta u2 k2 post, boxes_ok (mp4_file pre k1 u1 meta u2 k2 post) ->
  let M := 8 + lenN meta in let U := udta_size u1 M u2 in
  boxes_ok pre /\ boxes_ok k1 /\ boxes_ok u1 /\ boxes_ok u2 /\ boxes_ok k2 /\ boxes_ok post /\
  box_ok (udta_box U u1 M meta u2) /\ box_ok (Leaf M ($"meta") meta) /\ moov_size k1 U k2 < 2 ^ 32 /\ U < 2 ^ 32 /\ M < 2 ^ 32 /\
  box_ok (Node (moov_size k1 U k2) ($"moov") (moov_kids k1 U u1 M meta u2 k2)).
Proof.
  intros pre k1 u1 meta u2 k2 post H M U. rewrite file_tree in H. fold M in H. fold U in H. unfold boxes_ok in H.
  rewrite !Forall_app in H. destruct H as (H1 & H2 & H3). inversion H2 as [|? ? HM _]; subst. pose proof HM as HM'.
  apply box_ok_node in HM. destruct HM as (_ & L & _ & HK). unfold moov_kids, boxes_ok in HK. rewrite !Forall_app in HK. destruct HK as (HK1 & HU & HK2).
  inversion HU as [|? ? HU' _]; subst. pose proof HU' as HU2. unfold udta_box in HU'. apply box_ok_node in HU'. destruct HU' as (E & LU & _ & HK). unfold boxes_ok in HK.
  rewrite !Forall_app in HK. destruct HK as (HU1 & HM & HU2'). inversion HM as [|? ? HM2 _]; subst. pose proof HM2 as HM3. cbn [box_ok] in HM3. destruct HM3 as (_ & LM & _).
  repeat (split; [assumption|]). assumption.
Qed.
Lemma sees_moov : forall pre S k1 U u1 M body u2 k2 post,
  sees (lay pre S k1 U u1 M body u2 k2 post) (cursor (moov_at pre + 8)) (encs k1 ++ enc (udta_box U u1 M body u2) ++ encs k2 ++ encs post).
Proof.
  intros. unfold sees. cbn [cursor r_pos]. rewrite lay_tree, !encs_app, encs_one. cbn [enc].
  replace (encs pre ++ (be_enc 4 S ++ $"moov" ++ flat_map enc (moov_kids k1 U u1 M body u2 k2)) ++ encs post)
    with ((encs pre ++ be_enc 4 S ++ $"moov") ++ encs (moov_kids k1 U u1 M body u2 k2) ++ encs post) by (unfold encs; now rewrite <- !app_assoc).
  rewrite dropN_app by lens. unfold moov_kids. rewrite !encs_app, encs_one, <- !app_assoc. reflexivity.
Qed.
Lemma sees_udta : forall pre S k1 U u1 M body u2 k2 post,
  sees (lay pre S k1 U u1 M body u2 k2 post) (cursor (udta_at pre k1 + 8)) (encs u1 ++ enc (Leaf M ($"meta") body) ++ encs u2 ++ encs k2 ++ encs post).
Proof.
  intros. unfold sees. cbn [cursor r_pos]. unfold lay. cbn [enc].
  set (P := encs pre ++ be_enc 4 S ++ $"moov" ++ encs k1 ++ be_enc 4 U ++ $"udta").
  replace (encs pre ++ be_enc 4 S ++ $"moov" ++ encs k1 ++ be_enc 4 U ++ $"udta" ++ encs u1 ++ be_enc 4 M ++ $"meta" ++ body ++ encs u2 ++ encs k2 ++ encs post)
    with (P ++ encs u1 ++ (be_enc 4 M ++ $"meta" ++ body) ++ encs u2 ++ encs k2 ++ encs post) by (unfold P; now rewrite <- !app_assoc).
  apply dropN_app. unfold P. lens.
Qed.
Lemma udta_len : forall U u1 meta u2, lenN (enc (udta_box U u1 (8 + lenN meta) meta u2)) = udta_size u1 (8 + lenN meta) u2.
Proof.
  intros. unfold udta_box. cbn [enc]. fold (encs (u1 ++ [Leaf (8 + lenN meta) ($"meta") meta] ++ u2)). rewrite lenN_hd by reflexivity.
  rewrite !encs_app, encs_one, !lenN_app. cbn [enc]. rewrite lenN_hd by reflexivity. unfold udta_size. lia.
Qed.
Lemma moov_len : forall S U k1 u1 meta u2 k2, lenN (enc (Node S ($"moov") (moov_kids k1 U u1 (8 + lenN meta) meta u2 k2))) = moov_size k1 (udta_size u1 (8 + lenN meta) u2) k2.
Proof.
  intros. cbn [enc]. fold (encs (moov_kids k1 U u1 (8 + lenN meta) meta u2 k2)). rewrite lenN_hd by reflexivity. unfold moov_kids.
  rewrite !encs_app, encs_one, !lenN_app, udta_len. unfold moov_size. lia.
Qed.
Lemma vers_le : forall vers kids, meta_form vers kids -> lenN vers <= 4.
Proof. intros vers [|x l] [H _]; [contradiction|]. destruct H as [(-> & _)|[H _]]; [vm_compute; congruence|lia]. Qed.
Lemma write_ok : forall pre k1 u1 vers a0 f1 old f2 b0 u2 k2 post tag m padding I kids' d upto,
  let kids := a0 ++ f1 ++ old :: f2 ++ b0 in
  let top := mp4_file pre k1 u1 (vers ++ encs kids) u2 k2 post in
  tag_file pre k1 u1 vers kids u2 k2 post ->
  Forall (every (fun b => box_name b <> $"tfhd")) top -> Forall offsets_ok (k1 ++ u1 ++ u2 ++ k2) ->
  chosen (a0 ++ f1) old (f2 ++ b0) -> all_free f1 -> all_free f2 -> ~ starts_free (rev a0) -> ~ starts_free b0 ->
  build_ilst tag = Ok I -> new_kids a0 f1 old f2 b0 I padding kids' d upto ->
  moov_size k1 (udta_size u1 (8 + lenN (vers ++ kids')) u2) k2 < 2 ^ 32 ->
  let from := meta_at pre k1 u1 + 8 + lenN (vers ++ encs upto) in
  mp4_write (encs top) tag m padding
    = Ok [OpTrunc 0; OpWrite 0 (encs (mp4_file pre (shd d from k1) (shd d from u1) (vers ++ kids') (shd d from u2) (shd d from k2) post))].
Proof.
  intros pre k1 u1 vers a0 f1 old f2 b0 u2 k2 post tag m padding I kids' d upto kids top (HO & HFT & HN1 & HN2 & HN3 & HI & HMF) HT HOF HOLD HF1 HF2 HA HB HBI HP HL from.
  pose proof (file_parts _ _ _ _ _ _ _ HO) as PARTS. cbv zeta in PARTS. destruct PARTS as (P1 & P2 & P3 & P4 & P5 & P6 & PU & PM & LS & LU & LM & PMV).
  set (meta := vers ++ encs kids) in *. set (M := 8 + lenN meta) in *. set (U := udta_size u1 M u2) in *. set (S := moov_size k1 U k2) in *.
  assert (ET : top = pre ++ Node S ($"moov") (moov_kids k1 U u1 M meta u2 k2) :: post) by (unfold top; rewrite file_tree; reflexivity).
  assert (ED : encs top = lay pre S k1 U u1 M meta u2 k2 post) by (unfold top; rewrite file_lay; reflexivity).
  unfold mp4_write. destruct (verify_ok top m HO HFT) as (b & l & s & _ & VE). rewrite VE. cbn [bind].
  rewrite read_atoms_ok by exact HO. cbn [bind].
  assert (FT : find_top ($"moov") (cats 0 top) = Some (cat (moov_at pre) (Node S ($"moov") (moov_kids k1 U u1 M meta u2 k2)))).
  { rewrite ET, find_top_found by auto. rewrite N.add_0_l. reflexivity. }
  rewrite FT, HBI. cbn [bind]. rewrite cat_info. cbn [a_len a_start header_size a_ext].
  unfold header_size. cbn [a_ext].
  assert (LMV : lenN (enc (Node S ($"moov") (moov_kids k1 U u1 M meta u2 k2))) = S) by apply moov_len. rewrite LMV.
  assert (LUD : lenN (enc (udta_box U u1 M meta u2)) = U) by apply udta_len.
  assert (LME : lenN (enc (Leaf M ($"meta") meta)) = M) by (cbn [enc]; apply lenN_hd; reflexivity).
  rewrite ED at 2.
  assert (LEN : length (encs top) = length (lay pre S k1 U u1 M meta u2 k2 post)) by now rewrite ED.
  assert (FC1 : find_child (Datatypes.S (length (encs top))) (lay pre S k1 U u1 M meta u2 k2 post) S ($"udta") m (cursor (moov_at pre + 8))
     = Ok (Some (mkAi (udta_at pre k1) U false (Fourcc ($"udta"))), cursor (udta_at pre k1 + 8))).
  { rewrite (find_child_found _ m ($"udta") k1 (udta_box U u1 M meta u2) (lenN (encs k2) + 8)) with (rest := encs k2 ++ encs post); auto.
    - rewrite LUD. cbn [cursor r_pos]. rewrite adv_cursor. unfold udta_at. rewrite N.add_assoc. reflexivity.
    - apply sees_moov.
    - now apply Forall_hd.
    - now apply box_ok_hd.
    - rewrite LUD. unfold S, moov_size. lia.
    - rewrite LUD. unfold U, udta_size. lia.
    - eapply Forall_impl; [|apply Forall_hd; exact P2]. intros x (_ & _ & _ & X & _). lia.
    - apply unbounded_avail. reflexivity.
    - rewrite LEN. eapply fuel_ok; [apply sees_moov|now apply Forall_hd]. }
  rewrite FC1. cbn [bind a_len a_start].
  assert (FC2 : find_child (Datatypes.S (length (encs top))) (encs top) U ($"meta") m (cursor (udta_at pre k1 + 8))
     = Ok (Some (mkAi (meta_at pre k1 u1) M false (Fourcc ($"meta"))), cursor (meta_at pre k1 u1 + 8))).
  { rewrite ED at 2. rewrite (find_child_found _ m ($"meta") u1 (Leaf M ($"meta") meta) (lenN (encs u2) + 8)) with (rest := encs u2 ++ encs k2 ++ encs post); auto.
    - rewrite LME. cbn [cursor r_pos]. rewrite adv_cursor. unfold meta_at. rewrite N.add_assoc. reflexivity.
    - apply sees_udta.
    - now apply Forall_hd.
    - now apply box_ok_hd.
    - rewrite LME. unfold U, udta_size. lia.
    - rewrite LME. unfold M. lia.
    - eapply Forall_impl; [|apply Forall_hd; exact P3]. intros x (_ & _ & _ & X & _). lia.
    - apply unbounded_avail. reflexivity.
    - rewrite LEN. eapply fuel_ok; [apply sees_udta|now apply Forall_hd]. }
  rewrite FC2. cbn [bind].
  assert (HK : Forall hd_ok kids) by (eapply Forall_impl; [|exact HI]; apply item_ok_hd).
  assert (SB : sees (encs top) (cursor (meta_at pre k1 u1 + 8)) (vers ++ encs kids ++ encs u2 ++ encs k2 ++ encs post)).
  { rewrite ED. replace (meta_at pre k1 u1 + 8) with (meta_at pre k1 u1 + 8 + lenN (@nil N)) by (change (lenN (@nil N)) with 0; lia).
    rewrite app_assoc. apply (sees_body pre S k1 U u1 M [] meta). }
  assert (LK8 : 8 <= lenN (vers ++ encs kids)).
  { rewrite lenN_app. assert (8 * lenN kids <= lenN (encs kids)) by now apply boxes_len. unfold kids in *. rewrite !lenN_app, lenN_cons in H. lia. }
  destruct (meta_is_full_ok _ _ _ _ _ SB HK (proj1 HMF)) as (full & r' & ME & -> & _ & _); auto.
  { apply unbounded_avail. reflexivity. }
  { discriminate. }
  rewrite ME. cbn [bind]. rewrite adv_cursor, ED.
  assert (SO : Forall sound (k1 ++ u1 ++ u2 ++ k2)).
  { assert (BO : boxes_ok (k1 ++ u1 ++ u2 ++ k2)) by (unfold boxes_ok; rewrite !Forall_app; auto). unfold boxes_ok in BO. rewrite Forall_forall in *. intros x X.
    apply sound_of; auto using box_ok_len4, box_ok_containers. }
  assert (DR : dry (k1 ++ u1 ++ u2 ++ k2)).
  { assert (Forall (every (fun b => box_name b <> $"tfhd")) (k1 ++ u1 ++ u2 ++ k2)).
    { rewrite ET in HT. rewrite Forall_app in HT. destruct HT as [_ HT]. inversion HT as [|? ? HT1 _]; subst. apply every_node in HT1. destruct HT1 as [_ HT1].
      unfold moov_kids in HT1. rewrite !Forall_app in HT1. destruct HT1 as (T1 & T2 & T3). inversion T2 as [|? ? T4 _]; subst. apply every_node in T4. destruct T4 as [_ T4].
      rewrite !Forall_app in T4. destruct T4 as (T5 & _ & T6). rewrite !Forall_app. auto. }
    unfold dry. rewrite Forall_forall in *. auto. }
  assert (UU : U = 8 + lenN (encs u1) + lenN (encs u2) + M) by (unfold U, udta_size; lia).
  assert (HL' : 8 + lenN (encs u1) + lenN (encs u2) + (8 + lenN (vers ++ kids')) < 2 ^ 32) by (unfold moov_size, udta_size in HL; lia).
  pose proof (save_ok top pre S S k1 u1 vers a0 f1 old f2 b0 u2 k2 post m padding I kids' d upto U M (8 + lenN (encs u1) + lenN (encs u2)) from
    HT SO DR HK HMF (vers_le _ _ HMF) HOLD HF1 HF2 HA HB eq_refl UU LM HP eq_refl HL') as SV.
  fold kids in SV. fold meta in SV. rewrite SV. clear SV.
  cbn [bind]. unfold msub. replace (S <? U) with false by (unfold S, moov_size; lia). cbn [bind].
  replace (8 + lenN (encs u1) + lenN (encs u2) + (8 + lenN (vers ++ kids'))) with (udta_size u1 (8 + lenN (vers ++ kids')) u2) by (unfold udta_size; lia).
  replace (S - U + udta_size u1 (8 + lenN (vers ++ kids')) u2) with (moov_size k1 (udta_size u1 (8 + lenN (vers ++ kids')) u2) k2) by (unfold S, moov_size; lia).
  rewrite write_moov_size by exact HL. cbn [bind]. rewrite file_lay.
  assert (SH : forall l, Forall sound l -> lenN (encs (shd d from l)) = lenN (encs l)).
  { intros l0 X. unfold shd. destruct (d =? 0)%Z; auto using sh_len. }
  rewrite !Forall_app in SO. destruct SO as (SO1 & SO2 & SO3 & SO4).
  unfold moov_size, udta_size. rewrite !SH by auto. reflexivity.
Qed.
