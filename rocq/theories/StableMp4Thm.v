(** C247 for MP4: saving the same list a second time changes nothing, unless there was free space after the old one. *)
From Verif Require Import Base BaseLemmas Str StrLemmas TextModel TextSpec TextProof Mode PictureModel FileModel Mp4Model Mp4WriteModel Mp4Spec Mp4Proof Mp4Proof2 Mp4Proof3 Mp4Proof4 Mp4Proof5 Mp4Proof6 Mp4Proof7 Mp4Proof8 Mp4Proof9 Mp4Ex Mp4Thm2.
From Verif Require StableThm.

Lemma shift_every : forall (P : box -> Prop) d from, (forall b, P b -> P (shift_tables d from b)) -> forall b, every P b -> every P (shift_tables d from b).
Proof.
  intros P d from HP. induction b using box_ind'; intros E.
  - destruct E as [E _]. split; [apply (HP _ E)|exact I].
  - apply every_node in E. destruct E as [E K]. change (shift_tables d from (Node s id ks)) with (Node s id (map (shift_tables d from) ks)). apply every_node. split; [apply (HP _ E)|].
    rewrite Forall_map. rewrite Forall_forall in *. intros x X. apply H; auto.
Qed.
Lemma shift_not_named : forall n d from b, every (fun b => box_name b <> n) b -> every (fun b => box_name b <> n) (shift_tables d from b).
Proof. intros n d from. apply shift_every. intros b B. now rewrite shift_name. Qed.
Lemma shift_offsets : forall d from b, offsets_ok b -> offsets_ok (shift_tables d from b).
Proof.
  intros d from. apply shift_every. intros b [B C]. split; [now rewrite shift_name|]. destruct b as [s id c|s id ks]; [|exact I]. cbn [shift_tables upd]. intros ->. destruct (C eq_refl) as (offs & T).
  rewrite list_eqb_refl. pose proof T as (_ & _ & _ & _ & LO & FO). destruct (map_table_ok 4 (moved d from) c offs T) as (ver & rest & L & _ & E).
  exists (map (moved d from) offs), ver, rest. assert (LM : lenN (map (moved d from) offs) = lenN offs) by (unfold lenN; now rewrite map_length). rewrite LM. split; [exact L|]. split; [exact E|]. split; [exact LO|].
  rewrite Forall_map. eapply Forall_impl; [|exact FO]. intros o O. cbn beta in *. unfold moved. destruct (o <? from); [exact O|]. change (256 ^ N.of_nat 4) with 4294967296. change (2 ^ 32)%Z with 4294967296%Z. pose proof (Z.mod_pos_bound (Z.of_N o + d) 4294967296 ltac:(lia)). lia.
Qed.
Lemma shd_all : forall (P : box -> Prop) d from, (forall b, P b -> P (shift_tables d from b)) -> forall l, Forall P l -> Forall P (shd d from l).
Proof. intros P d from H l F. unfold shd. destruct (d =? 0)%Z; auto. unfold sh. rewrite Forall_map. eapply Forall_impl; [|exact F]. exact H. Qed.

(** After the first save there is at most one free atom after the list, and it is the one a further save writes. *)
Lemma kids_again : forall a0 f1 old b0 I padding kids' d upto, new_kids a0 f1 old [] b0 I padding kids' d upto -> I <> [] -> lenN (encs f1) + lenN (enc old) < 2 ^ 32 ->
  exists fr, all_free fr /\ Forall item_ok fr /\ kids' = encs a0 ++ I ++ encs fr ++ encs b0 /\
    forall new kids2 d2 upto2, enc new = I -> new_kids a0 [] new fr b0 I padding kids2 d2 upto2 -> kids2 = kids' /\ d2 = 0%Z.
Proof.
  intros a0 f1 old b0 I padding kids' d upto H NE L.
  assert (FB : forall n, 8 <= n -> lenN (free_box n) = n).
  { intros n Ln. unfold free_box, sbox. rewrite !lenN_app, be_enc_len. change (lenN ($"free")) with 4. unfold lenN. rewrite repeat_length. lia. }
  assert (G : exists fr, all_free fr /\ Forall item_ok fr /\ kids' = encs a0 ++ I ++ encs fr ++ encs b0 /\ (fr = [] \/ exists n, 8 <= n /\ encs fr = free_box n)).
  { assert (X : forall n, 8 <= n < 2 ^ 32 -> all_free [Leaf n ($"free") (repeat 1 (N.to_nat (n - 8)))] /\ Forall item_ok [Leaf n ($"free") (repeat 1 (N.to_nat (n - 8)))] /\ encs [Leaf n ($"free") (repeat 1 (N.to_nat (n - 8)))] = free_box n).
    { intros n Ln. split; [repeat constructor|]. split; [|rewrite free_box_enc, encs_one by lia; reflexivity].
      constructor; [|constructor]. split; [unfold lenN; rewrite repeat_length; lia|]. split; [lia|]. split; [idok|idne]. }
    change (lenN (encs [])) with 0 in *. destruct H; [contradiction| | | | |]; change (lenN (encs [])) with 0 in *.
    - destruct (X n) as (X1 & X2 & X3); [lia|]. eexists. split; [exact X1|]. split; [exact X2|]. rewrite X3. split; [reflexivity|]. right. exists n. split; [lia|reflexivity].
    - exists []. split; [constructor|]. split; [constructor|]. split; [reflexivity|]. now left.
    - destruct (X 8) as (X1 & X2 & X3); [lia|]. eexists. split; [exact X1|]. split; [exact X2|]. rewrite X3. split; [reflexivity|]. right. exists 8. split; [lia|reflexivity].
    - exists []. split; [constructor|]. split; [constructor|]. split; [reflexivity|]. now left.
    - destruct (X p) as (X1 & X2 & X3); [lia|]. eexists. split; [exact X1|]. split; [exact X2|]. rewrite X3. split; [reflexivity|]. right. exists p. split; [lia|reflexivity]. }
  destruct G as (fr & G1 & G2 & G3 & G4). exists fr. do 3 (split; [assumption|]). clear H L. intros new kids2 d2 upto2 <- H. subst kids'.
  destruct H; [contradiction| | | | |]; change (lenN (encs [])) with 0 in *; try lia.
  - split; [|reflexivity]. destruct G4 as [->|(k & Lk & Ek)]; [change (lenN (encs [])) with 0 in *; lia|]. rewrite Ek in *. rewrite FB in H0 by lia. replace n with k by lia. reflexivity.
  - split; [reflexivity|]. lia.
Qed.

Theorem C247_mp4 : forall pre k1 u1 vers a0 f1 old b0 u2 k2 post tag m padding I,
  saveable pre k1 u1 vers a0 f1 old [] b0 u2 k2 post -> lenN vers = 4 -> a0 <> [] -> Forall atom_ok tag -> tag <> [] -> build_ilst tag = Ok I -> padding_ok padding ->
  let top := mp4_file pre k1 u1 (vers ++ encs (a0 ++ f1 ++ old :: b0)) u2 k2 post in
  lenN (encs top) + 2 * (lenN I + max_pad padding) < 2 ^ 32 ->
  StableThm.stable (fun d => mp4_write d tag m padding) (encs top).
Proof.
  intros pre k1 u1 vers a0 f1 old b0 u2 k2 post tag m padding I HS LV NA0 HA HT HI HP top HL log HW0.
  destruct (C116_saved _ _ _ _ _ _ _ _ _ _ _ _ tag m padding I HS HI HP ltac:(cbn [app]; fold top; lia)) as (kids' & d & upto & HK & HW). cbv zeta in HW. cbn [app] in HW. fold top in HW. rewrite HW0 in HW. injection HW as ->.
  pose proof (saveable_f2 _ _ _ _ _ _ _ _ _ _ _ _ HS) as (I1 & I2 & I3 & I4 & I5). pose proof HS as ((HO & HFT & N1 & N2 & N3 & HIK & HMF) & HTF & HOF & HOLD & HN & F1 & F2 & NA & NB). cbn [app] in *.
  set (from := meta_at pre k1 u1 + 8 + lenN (vers ++ encs upto)) in *.
  destruct (build_ilst_ok tag I HA HI) as [[E _]|(_ & EI & LI & PI)]; [contradiction|].
  pose proof (shd_sound _ _ _ _ _ _ _ HO HOF) as SO. rewrite !Forall_app in SO. destruct SO as (S1 & S2 & S3 & S4).
  pose proof (file_parts _ _ _ _ _ _ _ HO) as PARTS. cbv zeta in PARTS. destruct PARTS as (P1 & P2 & P3 & P4 & P5 & P6 & PU & PM & LS & LU & LM & PMV).
  assert (NE : I <> []).
  { intros E. rewrite E in EI. apply (f_equal (fun l => lenN l)) in EI. rewrite leaf_len in EI by reflexivity. change (lenN (@nil N)) with 0 in EI. lia. }
  assert (LK : lenN (encs f1) + lenN (enc old) < 2 ^ 32).
  { clear - LM. rewrite lenN_app, !encs_app, encs_cons, !lenN_app in LM. lia. }
  destruct (kids_again _ _ _ _ _ _ _ _ _ HK NE LK) as (fr & FR & IR & EK & AG).
  set (new := leaf ($"ilst") (flat_map item_box tag)) in *. rewrite rewritten.
  assert (EQ : vers ++ kids' = vers ++ encs (a0 ++ [] ++ new :: fr ++ b0)) by (cbn [app]; rewrite encs_app, encs_cons, encs_app, <- EI, EK; reflexivity).
  rewrite EQ.
  assert (LN : lenN (encs (mp4_file pre (shd d from k1) (shd d from u1) (vers ++ encs (a0 ++ [] ++ new :: fr ++ b0)) (shd d from u2) (shd d from k2) post)) <= lenN (encs top) + lenN I + max_pad padding).
  { rewrite <- EQ. pose proof (new_kids_bound _ _ _ _ _ _ _ _ _ _ HK) as LB. cbn [app] in LB. unfold top. rewrite !file_lay. unfold lay. rewrite !lenN_app, !be4_len, !shd_len by auto. lia. }
  assert (HS2 : saveable pre (shd d from k1) (shd d from u1) vers a0 [] new fr b0 (shd d from u2) (shd d from k2) post).
  { unfold saveable. cbv zeta. split; [|split; [|split; [|split; [reflexivity|split; [|split; [constructor|split; [exact FR|split; [exact NA|exact NB]]]]]]]].
    - repeat split.
      + rewrite <- EQ. apply file_ok; auto using shd_ok.
        unfold moov_size, udta_size. rewrite !shd_len by auto. pose proof (new_kids_bound _ _ _ _ _ _ _ _ _ _ HK) as LB. cbn [app] in LB.
        unfold top in HL. rewrite file_lay in HL. unfold lay in HL. rewrite !lenN_app, !be4_len in HL. rewrite lenN_app. change (lenN ($"moov")) with 4 in HL. change (lenN ($"udta")) with 4 in HL. change (lenN ($"meta")) with 4 in HL. lia.
      + eapply ftyp_pre; eauto.
      + exact N1.
      + now apply shd_named.
      + now apply shd_named.
      + apply Forall_app. split; auto. cbn [app]. constructor; [|apply Forall_app; auto]. split; [reflexivity|]. split; [exact LI|]. split; [idok|idne].
      + destruct HMF as [HMS _]. destruct a0 as [|x a0]; [contradiction|]. exact HMS.
      + intros ->. discriminate LV.
    - unfold mp4_file in *. rewrite !Forall_app in *. destruct HTF as (T1 & T2 & T3). split; [exact T1|]. split; [|exact T3]. inversion T2 as [|? ? T4 _]; subst. constructor; [|constructor].
      apply every_node in T4. destruct T4 as [T4 T5]. apply every_node. split; [discriminate|]. apply Forall_app in T5 as [T5 T6]. inversion T6 as [|? ? T8 T7]; subst.
      apply Forall_app. split; [apply shd_all; [apply shift_not_named|exact T5]|]. constructor; [|apply shd_all; [apply shift_not_named|exact T7]].
      apply every_node in T8. destruct T8 as [T8 T9]. apply every_node. split; [discriminate|]. apply Forall_app in T9 as [T9 T10]. inversion T10 as [|? ? _ T11]; subst.
      apply Forall_app. split; [apply shd_all; [apply shift_not_named|exact T9]|]. constructor; [|apply shd_all; [apply shift_not_named|exact T11]]. split; [discriminate|exact Logic.I].
    - rewrite <- !shd_app. apply shd_all; [apply shift_offsets|exact HOF].
    - unfold none_named in *. apply Forall_app. split; [|exact HN]. eapply Forall_impl; [|exact FR]. cbn. intros x ->. discriminate. }
  destruct (C116_saved _ _ _ _ _ _ _ _ _ _ _ _ tag m padding I HS2 HI HP ltac:(lia)) as (kids2 & d2 & upto2 & HK2 & HW2). cbv zeta in HW2. rewrite HW2.
  destruct (AG new kids2 d2 upto2 (eq_sym EI) HK2) as [-> ->]. eexists. split; [reflexivity|]. rewrite rewritten, EQ. reflexivity.
Qed.
Print Assumptions C247_mp4.
(** The file of the example can be saved to: the list grows, the next save changes nothing. *)
Example C247_mp4_can : saveable [ftyp_ex] [leaf ($"mvhd") [9]; trak_ex (stco_ex [219])] [] [0; 0; 0; 0] [hdlr_ex] [] (ilst_ex ($"ab")) [] [] [] [] [mdat_ex].
Proof.
  assert (NE : forall (a b : bytes), list_eqb a b = false -> a <> b) by (intros a b H ->; now rewrite list_eqb_refl in H).
  unfold saveable. cbv zeta. split; [|split; [|split; [|split; [|split; [|split; [|split; [|split]]]]]]].
  - unfold tag_file. split; [apply boxesb_ok; reflexivity|]. split; [split; [reflexivity|]; exists ($"M4A "), ($"M4A "), [0; 0; 2; 0]; repeat (split; [reflexivity|]); split; [repeat constructor; unfold scalar; lia|reflexivity]|].
    split; [constructor; [apply NE; reflexivity|constructor]|]. split; [repeat (constructor; [apply NE; reflexivity|]); constructor|]. split; [constructor|].
    split; [|split].
    + repeat (constructor; [unfold item_ok; split; [reflexivity|]; split; [reflexivity|]; split; [split; [reflexivity|]; repeat (constructor; [cbn; lia|]); constructor|apply NE; reflexivity]|]). constructor.
    + right. split; [reflexivity|]. intros I. apply existsb_In in I. vm_compute in I. discriminate.
    + discriminate.
  - unfold mp4_file. cbn [app]. repeat (constructor; [cbn [every]; repeat (split; [apply NE; reflexivity|]); repeat split; apply NE; reflexivity|]). constructor.
  - repeat (constructor; [cbn [every offsets_ok]; repeat split; try (apply NE; reflexivity); try discriminate|]). 2: constructor.
    cbn [box_name leaf stco_ex].  intros _. exists [219], [0;0;0;0], []. repeat split. constructor; [reflexivity|constructor].
  - reflexivity.
  - repeat (constructor; [apply NE; reflexivity|]). constructor.
  - constructor.
  - constructor.
  - intros X. vm_compute in X. discriminate.
  - intros X. exact X.
Qed.
Example C247_mp4_ex : StableThm.changes_once (fun d => mp4_write d [nam ($"a longer title")] Strict (Some 16)) (encs (file_ex [219] ($"ab") [])) = true /\
  StableThm.changes_once (fun d => mp4_write d [nam ($"a")] Strict (Some 16)) (encs (file_ex [219] ($"ab") [])) = true.
Proof. split; vm_compute; reflexivity. Qed.
