From Verif Require Import Base BaseLemmas Str StrLemmas TextModel TextSpec TextProof Mode PictureModel FileModel Mp4Model Mp4WriteModel Mp4Spec Mp4Proof Mp4Proof2 Mp4Proof3 Mp4Proof4 Mp4Proof5 Mp4Proof6 Mp4Proof7 Mp4Proof8 Mp4Proof9 Mp4Ex.

(** * C120: the atoms of a file *)
Theorem C120_tree : forall top m, boxes_ok top -> read_atoms (encs top) m = Ok (cats 0 top).
Proof. exact read_atoms_ok. Qed.
Print Assumptions C120_tree.
Example C120_ex :
  let t := [leaf ($"ftyp") [1; 2]; node ($"moov") [leaf ($"mvhd") [7]; node ($"trak") []]] in
  read_atoms (encs t) Strict = Ok [CAtom (mkAi 0 10 false (Fourcc ($"ftyp"))) [];
    CAtom (mkAi 10 25 false (Fourcc ($"moov"))) [CAtom (mkAi 18 9 false (Fourcc ($"mvhd"))) []; CAtom (mkAi 27 8 false (Fourcc ($"trak"))) []]].
Proof. vm_compute. reflexivity. Qed.
(** With a 64-bit size *)
Definition ext_box (id c : bytes) : bytes := be_enc 4 1 ++ id ++ be_enc 8 (16 + lenN c) ++ c.
Lemma verify_sees : forall c l m, (exists brand s rest, c = brand ++ rest /\ lenN brand = 4 /\ str_ok s /\ utf8_enc s = brand) -> 8 + lenN c < 2 ^ 32 ->
  let data := enc (Leaf (8 + lenN c) ($"ftyp") c) ++ l in
  exists s, verify_mp4 data m (atom_reader data) = Ok (s, adv (lenN (enc (Leaf (8 + lenN c) ($"ftyp") c))) (atom_reader data)).
Proof.
  intros c l m (brand & s & rest & -> & HL & HS & <-) HB data. exists (trim_end_nulls s).
  assert (HI : box_id ($"ftyp")) by idok. assert (HD : $"ftyp" <> $"----") by idne.
  assert (IN : inside data (atom_reader data) (sbox ($"ftyp") (utf8_enc s ++ rest) ++ l)) by exact (inside_start data).
  unfold verify_mp4. rewrite (inside_next _ _ _ _ _ m IN HI HD HB). cbn [bind a_ident a_len]. rewrite is_fourcc_refl. cbn [negb].
  rewrite lenN_app, HL. replace (8 + (4 + lenN rest) <? 12) with false by lia.
  apply inside_body in IN; [|reflexivity]. rewrite <- app_assoc in IN.
  pose proof (rd_inside _ _ _ _ IN) as RD. rewrite HL in RD. rewrite RD. cbn [bind].
  replace (8 + (4 + lenN rest) - 12) with (lenN rest) by lia. rewrite seek_adv. cbn [bind]. unfold utf8_decode. rewrite utf8_dec_enc by auto.
  rewrite !adv_adv. cbn [enc]. rewrite lenN_hd, lenN_app, HL by reflexivity. replace (8 + 4 + lenN rest) with (8 + (4 + lenN rest)) by lia. reflexivity.
Qed.
Lemma moov_find_none : forall data m l r fuel, within data r (encs l) [] -> Forall hd_ok l -> none_named ($"moov") l -> (length l < fuel)%nat ->
  moov_find fuel data m r = Err MMissingMoov.
Proof.
  intros data m. induction l as [|b l IH]; intros r fuel HW HH HN HF; (destruct fuel; [inversion HF|]); cbn [moov_find].
  - rewrite (within_end _ _ _ _ HW). reflexivity.
  - inversion HH; subst. inversion HN; subst. rewrite encs_cons in HW. rewrite (within_next _ _ _ _ _ _ HW H1). cbn [a_ident a_ext a_len].
    rewrite is_fourcc_neq by auto. destruct (within_skip _ _ _ _ _ HW H1) as [E HW']. rewrite E. cbn [bind]. apply IH; auto. cbn in HF. lia.
Qed.
(** A file with such an atom before [moov] cannot be read at all: eight bytes too many are skipped. *)
Theorem C120_extended_refuted : forall ftyp id c ks post o, boxes_ok [ftyp] -> ftyp_first [ftyp] -> box_id id -> id <> $"moov" -> id <> $"----" ->
  boxes_ok ks -> boxes_ok post -> none_named ($"moov") (ks ++ post) ->
  let data := enc ftyp ++ ext_box id c ++ encs (node ($"moov") ks :: post) in lenN data < 2 ^ 63 ->
  mp4_read data o = Err MMissingMoov.
Proof.
  intros ftyp id c ks post o HO HF HI NM ND HK HP HN data HL. unfold mp4_read.
  destruct ftyp as [sz f fc|]; [|contradiction]. cbn [ftyp_first] in HF. destruct HF as (-> & HF).
  apply Forall_cons_iff in HO. destruct HO as [HB _]. cbn [box_ok] in HB. destruct HB as (-> & HB & _).
  destruct (verify_sees fc (ext_box id c ++ encs (node ($"moov") ks :: post)) (mo_mode o) HF HB) as [str V]. fold data in V. rewrite V. cbn [bind].
  set (F := enc (Leaf (8 + lenN fc) ($"ftyp") fc)) in *. set (E := ext_box id c) in *.
  assert (LI : lenN id = 4) by apply HI. assert (LE : lenN E = 16 + lenN c) by (unfold E, ext_box; rewrite !lenN_app, be4_len, be_enc_len, LI; lia).
  assert (LD : lenN data = lenN F + (16 + lenN c) + (8 + lenN (encs ks)) + lenN (encs post)).
  { unfold data. rewrite !lenN_app, encs_cons, lenN_app, node_len, LE by reflexivity. lia. }
  assert (NX : next data (mo_mode o) (adv (lenN F) (atom_reader data)) = Ok (Some (mkAi (lenN F) (16 + lenN c) true (Fourcc id)), adv (lenN F + 16) (atom_reader data))).
  { assert (W : within data (adv (lenN F) (atom_reader data)) (E ++ encs (node ($"moov") ks :: post)) []).
    { eapply within_adv with (a := F); [|reflexivity]. split; [unfold sees; cbn [atom_reader r_pos]; rewrite app_nil_r; reflexivity|]. eexists; split; reflexivity. }
    unfold next. pose proof W as [SW (bd & EB & LR)]. rewrite EB, LR. rewrite lenN_app, LE. replace (_ =? 0) with false by lia. replace (_ <? 8) with false by lia.
    unfold read_info, read_head. unfold E, ext_box in W. rewrite <- !app_assoc in W.
    pose proof W as [S1 _]. rewrite <- !app_assoc in S1. unfold rd_be at 1. rewrite (rd_exact_app _ _ _ _ 4 S1 (be4_len _) (within_avail _ _ _ _ _ 4 W (be4_len _))). cbn [bind].
    apply within_adv with (n := 4) in W; [|apply be4_len]. pose proof W as [S2 _]. rewrite <- !app_assoc in S2. rewrite (rd_exact_app _ _ _ _ 4 S2 LI (within_avail _ _ _ _ _ 4 W LI)). cbn [bind].
    assert (VI : forallb valid_ident_byte id = true).
    { destruct HI as [_ HI]. apply forallb_forall. intros x X. rewrite Forall_forall in HI. specialize (HI x X). unfold valid_ident_byte. lia. }
    rewrite VI. cbn [negb]. rewrite be_dec_enc by reflexivity. change (1 =? 0) with false. change (1 =? 1) with true. cbv iota.
    apply within_adv with (n := 4) in W; [|exact LI]. pose proof W as [S3 _]. rewrite <- !app_assoc in S3. assert (L8 : lenN (be_enc 8 (16 + lenN c)) = 8) by apply be_enc_len. unfold rd_be. rewrite (rd_exact_app _ _ _ _ 8 S3 L8 (within_avail _ _ _ _ _ 8 W L8)). cbn [bind].
    rewrite be_dec_enc by (change (256 ^ N.of_nat 8) with 18446744073709551616; change (2 ^ 63) with 9223372036854775808 in HL; lia).
    replace (16 + lenN c <? 8) with false by lia. replace (_ <? 16 + lenN c - 8) with false by lia. cbn [bind h_id h_start h_len h_ext].
    replace (list_eqb id ($"----")) with false by (symmetry; apply list_eqb_neq; exact ND). rewrite !adv_adv, adv_pos. cbn [atom_reader r_pos]. rewrite N.add_0_l.
    replace (lenN F + 4 + 4 + 8) with (lenN F + 16) by lia. reflexivity. }
  assert (LN : exists n, n = length data) by eauto. destruct LN as [n LN]. rewrite <- LN.
  assert (SK : skip_atom true (16 + lenN c) (adv (lenN F + 16) (atom_reader data)) = Ok (seek_start (lenN F + lenN E + 8) (adv (lenN F + 16) (atom_reader data)))).
  { unfold skip_atom. cbn [negb]. rewrite adv_pos. cbn [atom_reader r_pos]. replace (0 + (lenN F + 16) + (16 + lenN c - 8)) with (lenN F + lenN E + 8) by lia.
    replace (U64_MAX <? lenN F + lenN E + 8) with false by (unfold U64_MAX; change (2 ^ 63) with 9223372036854775808 in HL; lia). reflexivity. }
  cbn [moov_find]. rewrite NX. cbn [a_ident a_ext a_len]. rewrite is_fourcc_neq by exact NM. rewrite SK. cbn [bind].
  assert (MF : moov_find n data (mo_mode o) (seek_start (lenN F + lenN E + 8) (adv (lenN F + 16) (atom_reader data))) = Err MMissingMoov).
  { apply moov_find_none with (l := ks ++ post).
    - unfold seek_start, adv, atom_reader. cbn [r_bound consume b_len b_start b_rem r_pos]. replace (lenN data <? lenN F + lenN E + 8) with false by lia. rewrite !N.add_0_l. split.
      + unfold sees. cbn [r_pos]. unfold data. rewrite encs_cons. unfold node. cbn [enc]. fold (encs ks). fold F. fold E. set (sz4 := be_enc 4 (8 + lenN (encs ks))). assert (L4 : lenN sz4 = 4) by apply be4_len.
        rewrite app_nil_r, encs_app. replace (F ++ E ++ (sz4 ++ $"moov" ++ encs ks) ++ encs post) with ((F ++ E ++ sz4 ++ $"moov") ++ encs ks ++ encs post) by (now rewrite <- !app_assoc).
        apply dropN_app. rewrite !lenN_app, L4. change (lenN ($"moov")) with 4. lia.
      + eexists. split; [reflexivity|]. cbn [b_rem]. rewrite encs_app, lenN_app. lia.
    - apply Forall_app. split; now apply Forall_hd.
    - exact HN.
    - assert (HH : Forall hd_ok (ks ++ post)) by (apply Forall_app; split; now apply Forall_hd). apply boxes_len in HH. rewrite encs_app, !lenN_app in HH. unfold lenN in *. rewrite app_length. lia. }
  rewrite MF. reflexivity.
Qed.
Print Assumptions C120_extended_refuted.
Example C120_extended_ex :
  mp4_read (enc (leaf ($"ftyp") ($"M4A " ++ [0; 0; 2; 0])) ++ ext_box ($"mdat") [1; 2; 3] ++ encs [node ($"moov") [leaf ($"mvhd") [9]]]) (mkMo Relaxed true true true true) = Err MMissingMoov.
Proof. vm_compute. reflexivity. Qed.
(** An atom of size 0 extends to the end of the file; its length comes out eight too small. *)
Theorem C120_to_end_refuted : forall id c m, box_id id -> id <> $"----" -> 8 <= lenN c -> lenN c < 2 ^ 32 ->
  let data := be_enc 4 0 ++ id ++ c in
  read_info data (lenN data) m (cursor 0) = Ok (Some (mkAi 0 (lenN c) false (Fourcc id)), cursor 8).
Proof.
  intros id c m HI ND LC LB data. destruct HI as [LI HI]. assert (HI' : box_id id) by (split; auto).
  assert (LD : lenN data = 8 + lenN c) by (unfold data; rewrite !lenN_app, be4_len, LI; lia).
  unfold read_info, read_head. assert (S0 : sees data (cursor 0) (be_enc 4 0 ++ id ++ c)) by reflexivity.
  rewrite (rd_be_app data (cursor 0) 4 0 _ 4 S0) by first [reflexivity | exact I]. cbn [bind].
  assert (S4 : sees data (adv 4 (cursor 0)) (id ++ c)) by (eapply sees_adv; [exact S0|apply be4_len]).
  rewrite (rd_exact_app data _ id c 4 S4 LI) by exact I. cbn [bind]. rewrite ident_bytes_ok by auto. cbn [negb]. change (0 =? 0) with true. cbv iota.
  rewrite adv_adv. unfold seek_end, seek_start, adv, cursor. cbn [r_bound consume r_pos]. unfold msub. rewrite LD. replace (8 + lenN c <? 0 + (4 + 4)) with false by lia. cbn [bind].
  replace (8 + lenN c - (0 + (4 + 4))) with (lenN c) by lia. replace (lenN c <? 8) with false by lia. replace (8 + lenN c <? lenN c - 8) with false by lia. cbn [bind h_id h_start h_len h_ext].
  replace (list_eqb id ($"----")) with false by (symmetry; apply list_eqb_neq; exact ND). reflexivity.
Qed.
Print Assumptions C120_to_end_refuted.
Example C120_to_end_ex : read_info (be_enc 4 0 ++ $"mdat" ++ [1; 2; 3; 4; 5; 6; 7; 8; 9]) 17 Strict (cursor 0) = Ok (Some (mkAi 0 9 false (Fourcc ($"mdat"))), cursor 8).
Proof. vm_compute. reflexivity. Qed.
