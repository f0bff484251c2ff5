(** Lemmas about FLAC metadata blocks. *)
From Verif Require Import BaseLemmas StrLemmas TextProof PictureProof PictureThm Id3v2HeaderProof Id3v2HeaderThm VorbisThm FlacMoveThm FlacSpec FlacModel.

Lemma land_low : forall ty, ty < 128 -> N.land (ty + 128) 0x7F = ty /\ N.land ty 0x7F = ty /\ N.land (ty + 128) 0x80 = 128 /\ N.land ty 0x80 = 0.
Proof.
  intros. replace ty with (N.of_nat (N.to_nat ty)) by apply N2Nat.id. assert (N.to_nat ty < 128)%nat by lia.
  generalize (N.to_nat ty), H0. clear. intros n H. do 128 (destruct n as [|n]; [vm_compute; auto|]). lia.
Qed.

(** the bytes of one block *)
Definition blk (last : bool) (x : N * bytes) : bytes := [fst x + if last then 128 else 0] ++ be_enc 3 (lenN (snd x)) ++ snd x.
Definition fits (x : N * bytes) : Prop := fst x < 128 /\ lenN (snd x) < 2 ^ 24.
Lemma blk_len : forall l x, lenN (blk l x) = lenN (snd x) + 4.
Proof. intros. unfold blk. rewrite !lenN_app, be_enc_len, lenN_cons, lenN_nil. lia. Qed.
Lemma block_read_blk : forall want a last x rest, fits x ->
  block_read want (a ++ blk last x ++ rest) (lenN a) = Ok (mkBlock (fst x) last (if want (fst x) then snd x else []), lenN (a ++ blk last x)).
Proof.
  intros want a last [ty c] rest [T L]. cbn [fst snd] in *. unfold block_read. rewrite dropN_app by auto. rewrite lenN_app, blk_len. unfold blk. cbn [fst snd app read_u8 frd bind].
  pose proof (land_low ty T) as (A & B & C & D).
  assert (X : negb (N.land (ty + (if last then 128 else 0)) 128 =? 0) = last /\ N.land (ty + (if last then 128 else 0)) 127 = ty).
  { destruct last; [rewrite C, A|rewrite N.add_0_r, D, B]; auto. }
  destruct X as [X1 X2]. rewrite X1, X2. rewrite <- app_assoc. rewrite read_be_app by (auto; change (256 ^ 3) with (2 ^ 24); auto). cbn [frd bind].
  destruct (want ty).
  - rewrite read_exact_app by auto. cbn [frd bind]. do 2 f_equal; lia.
  - cbn [bind]. do 2 f_equal; lia.
Qed.
Lemma block_write_blk : forall b, b_ty b < 128 -> lenN (b_content b) < 2 ^ 24 -> block_write b = Ok (blk (b_last b) (b_ty b, b_content b)).
Proof.
  intros [ty last c] T L. cbn [b_ty b_content b_last] in *. unfold block_write, blk. cbn [fst snd b_ty b_last b_content]. unfold MAX_CONTENT.
  change (2 ^ 24) with 16777216 in L. replace (16777215 <? lenN c) with false by lia. pose proof (land_low ty T) as (_ & B & _). rewrite B.
  replace (N.lor ty (if last then 128 else 0)) with (ty + (if last then 128 else 0)); auto.
  destruct last. change 128 with (1 * 2 ^ 7) at 2. rewrite lor_add by auto. lia. now rewrite N.lor_0_r, N.add_0_r.
Qed.

Lemma metadata_inv : forall x l b, metadata (x :: l) b ->
  fits x /\ ((l = [] /\ b = blk true x) \/ (exists b', metadata l b' /\ b = blk false x ++ b')).
Proof.
  intros [ty c] l b H. inversion H; subst; split; try (split; auto); unfold blk; cbn [fst snd].
  - left. auto.
  - right. eexists. split; [eassumption|]. rewrite N.add_0_r, <- !app_assoc. reflexivity.
Qed.
Lemma metadata_one : forall x, fits x -> metadata [x] (blk true x).
Proof. intros [ty c] [A B]. cbn [fst snd] in *. constructor; auto. Qed.
Lemma metadata_cons : forall x l b, fits x -> metadata l b -> metadata (x :: l) (blk false x ++ b).
Proof. intros [ty c] l b [A B] H. unfold blk. cbn [fst snd] in *. rewrite N.add_0_r, <- !app_assoc. constructor; auto. Qed.
Lemma metadata_len : forall l b, metadata l b -> lenN b = sumN (map (fun x => 4 + lenN (snd x)) l) /\ (length l <= length b)%nat.
Proof.
  induction l as [|x l IH]; intros b H. inversion H. apply metadata_inv in H. destruct H as [F [[-> ->]|(b' & M & ->)]].
  - split. rewrite blk_len. cbn [map sumN]. lia. cbn. lia.
  - destruct (IH _ M). split. rewrite lenN_app, blk_len. cbn [map sumN]. lia.
    rewrite app_length. cbn [length]. pose proof (blk_len false x). unfold lenN in H1 at 1. lia.
Qed.

Definition plain_block (x : N * bytes) : block := mkBlock (fst x) false (snd x).
Lemma write_blocks_ok : forall l, l <> [] -> Forall fits l -> exists b, write_blocks (map plain_block l) = Ok b /\ metadata l b.
Proof.
  induction l as [|x l IH]; intros NE F. congruence. inversion F; subst. destruct H1 as [A B].
  cbn [map write_blocks plain_block b_ty b_content b_last]. rewrite block_write_blk by auto. cbn [b_ty b_content b_last bind].
  rewrite <- surjective_pairing. destruct l as [|y l].
  - cbn [map write_blocks bind]. eexists. split. reflexivity. rewrite app_nil_r. apply metadata_one. now split.
  - destruct IH as (b & E & M); [discriminate|auto|]. rewrite E. cbn [map]. cbn [bind]. eexists. split. reflexivity. apply metadata_cons; auto. now split.
Qed.

(** ** The loop of the writer *)
Lemma vendor_field_ok : forall c v, vendor_field c v -> block_vendor c = Ok v.
Proof.
  intros c v (raw & rest & -> & L & ->). unfold block_vendor. rewrite read_le_app by auto. cbn [frd bind].
  replace (lenN (raw ++ rest) <? lenN raw) with false by (rewrite lenN_app; lia). now rewrite read_exact_app.
Qed.
Definition stays (x : N * bytes) : bool := negb (fst x =? 4) && negb (fst x =? 6).
Definition is_padding (x : N * bytes) : bool := fst x =? 1.
Lemma write_loop_ok : forall l b, metadata l b -> forall fuel a tail w v, (length l <= fuel)%nat -> retained (w_vendor w) l v ->
  write_loop fuel (a ++ b ++ tail) (lenN a) false w =
  Ok (mkW (w_blocks w ++ map plain_block (filter stays l)) v (w_remove w || existsb (fun x => negb (stays x)) l) (w_padding w || existsb is_padding l), lenN (a ++ b)).
Proof.
  induction l as [|[ty c] l IH]; intros b M fuel a tail w v FU R. inversion M. apply metadata_inv in M. destruct M as [F M].
  destruct fuel as [|fuel]. cbn in FU. lia. cbn [write_loop].
  assert (RD : exists last rest, b = blk last (ty, c) ++ rest /\ (if last then l = [] /\ rest = [] else metadata l rest)).
  { destruct M as [[-> ->]|(b' & M & ->)]. exists true, []. rewrite app_nil_r. auto. exists false, b'. auto. }
  destruct RD as (last & rest & -> & M'). clear M. rewrite <- app_assoc. rewrite block_read_blk by auto. cbn [bind fst snd b_ty b_last b_content].
  set (w' := mkW (w_blocks w ++ (if stays (ty, c) then [mkBlock ty false c] else [])) (if ty =? 4 then match block_vendor c with Ok v => v | _ => [] end else w_vendor w)
     (w_remove w || negb (stays (ty, c))) (w_padding w || is_padding (ty, c))).
  assert (ST : (if ty =? PICTURE then Ok (mkW (w_blocks w) (w_vendor w) true (w_padding w))
     else if ty =? COMMENTS then let? v0 := block_vendor (if negb (ty =? PICTURE) then c else []) in Ok (mkW (w_blocks w) v0 true (w_padding w))
     else Ok (mkW (w_blocks w ++ [mkBlock ty false (if negb (ty =? PICTURE) then c else [])]) (w_vendor w) (w_remove w) (w_padding w || (ty =? PADDING)))) = Ok w' /\
     retained (w_vendor w') l v).
  { unfold PICTURE, COMMENTS, PADDING, w', stays, is_padding. cbn [fst w_vendor].
    inversion R as [|? ? ? ? ? NE R'|? ? ? ? ? VF R']; subst.
    - replace (ty =? 4) with false by lia. split; [|exact R']. destruct (N.eqb_spec ty 6).
      + subst. cbn [negb andb]. change (6 =? 1) with false. rewrite app_nil_r, orb_true_r, orb_false_r. reflexivity.
      + cbn [negb andb]. rewrite orb_false_r. reflexivity.
    - change (4 =? 6) with false. change (4 =? 4) with true. change (4 =? 1) with false. cbn [negb andb]. apply vendor_field_ok in VF. rewrite VF. cbn [bind].
      rewrite app_nil_r, orb_true_r, orb_false_r. split; auto. }
  destruct ST as [ST R']. rewrite ST. cbn [bind].
  assert (FIN : forall w'', w_blocks w'' = w_blocks w' -> w_blocks w' ++ map plain_block (filter stays l) = w_blocks w ++ map plain_block (filter stays ((ty, c) :: l))).
  { intros _ _. unfold w'. cbn [w_blocks filter]. destruct (stays (ty, c)); cbn [map plain_block fst snd]; rewrite <- app_assoc; auto. }
  specialize (FIN w' eq_refl).
  cbn [existsb]. rewrite !orb_assoc. destruct last.
  - destruct M' as [-> ->]. cbn [existsb]. rewrite !orb_false_r. rewrite app_nil_r in *. inversion R'; subst. rewrite <- FIN.
    destruct fuel; cbn [write_loop]; reflexivity.
  - rewrite app_assoc. rewrite (app_assoc a). rewrite (IH _ M' fuel (a ++ blk false (ty, c)) tail w' v) by (auto; cbn [length] in FU; lia). rewrite FIN, <- app_assoc. reflexivity.
Qed.

(** ** The loop of the reader *)
Fixpoint see (o : fopts) (l : list (N * bytes)) (f : flac_file) : res flac_error flac_file :=
  match l with
  | [] => Ok f
  | (ty, c) :: l => let? f := read_block_into o (mkBlock ty false (if want_read o ty then c else [])) f in see o l f
  end.
Lemma read_block_last : forall o ty l1 l2 c f, read_block_into o (mkBlock ty l1 c) f = read_block_into o (mkBlock ty l2 c) f.
Proof. reflexivity. Qed.
Lemma read_blocks_see : forall l b, metadata l b -> forall fuel a tail o f, (length l <= fuel)%nat ->
  read_blocks fuel o (a ++ b ++ tail) (lenN a) false f = let? f' := see o l f in Ok (f', lenN (a ++ b)).
Proof.
  induction l as [|[ty c] l IH]; intros b M fuel a tail o f FU. inversion M. apply metadata_inv in M. destruct M as [F M].
  destruct fuel as [|fuel]. cbn in FU. lia. cbn [read_blocks see].
  destruct M as [[-> ->]|(b' & M & ->)].
  - rewrite block_read_blk by auto. cbn [bind fst snd b_last see]. rewrite (read_block_last o ty true false).
    destruct (read_block_into o _ f); cbn [bind]; auto. destruct fuel; reflexivity.
  - rewrite <- app_assoc. rewrite block_read_blk by auto. cbn [bind fst snd b_last]. destruct (read_block_into o _ f) as [f'| |] eqn:E; cbn [bind]; auto.
    rewrite (app_assoc a). rewrite (IH _ M) by (cbn [length] in FU; lia). rewrite <- app_assoc. reflexivity.
Qed.
Lemma see_app : forall o a b f, see o (a ++ b) f = let? f := see o a f in see o b f.
Proof.
  induction a as [|[ty c] a IH]; intros; auto. cbn [app see]. destruct (read_block_into _ _ _); cbn [bind]; auto.
Qed.
Lemma see_other : forall o l f, Forall (fun x => fst x <> 4 /\ fst x <> 6) l -> see o l f = Ok f.
Proof.
  induction l as [|[ty c] l IH]; intros f H; auto. inversion H as [|? ? [A B] R]; subst. cbn [see fst] in *. unfold want_read, COMMENTS, PICTURE.
  replace (ty =? 4) with false by lia. replace (ty =? 6) with false by lia. cbn. now apply IH.
Qed.
Lemma see_comments : forall o v its b f, fo_tags o = true -> its <> [] -> vc_ok (fo_vo o) (mkVc v its []) -> vc_dump (mkVc v its []) = Ok b -> lenN b < 2 ^ 24 -> ff_tag f = None ->
  see o [(4, b)] f = Ok (mkFlac (Some (mkVc v its [])) (ff_pics f) (ff_props f)).
Proof.
  intros o v its b f T NE V D L NT. cbn [see]. unfold want_read, COMMENTS, PICTURE. change (4 =? 4) with true. change (4 =? 6) with false. rewrite T. cbn [andb orb].
  destruct (C78_packet_roundtrip_partial (fo_vo o) (mkVc v its []) [] false V) as (b' & E & RT). unfold vc_dump in D. rewrite E in D. cbn [app] in D. injection D as <-.
  specialize (RT []). rewrite app_nil_r in RT. change (lenN (@nil N)) with 0 in RT. specialize (RT ltac:(lia)). unfold read_block_into. cbn [b_content b_ty].
  destruct b' as [|x b'].
  { vm_compute in RT. discriminate. }
  rewrite T. change (4 =? COMMENTS) with true. cbn [andb]. rewrite NT. cbn [andb]. rewrite RT. cbn [vc_vendor vc_items bind]. destruct (vo_cover (fo_vo o)); reflexivity.
Qed.
Lemma see_pictures : forall o ps f, vo_cover (fo_vo o) = true -> Forall (fun x => representable (fst x) /\ info_ok (snd x)) ps ->
  see o (map (fun x => (6, as_flac_bytes (fst x) (snd x) false)) ps) f = Ok (mkFlac (ff_tag f) (ff_pics f ++ ps) (ff_props f)).
Proof.
  induction ps as [|x ps IH]; intros f C F. cbn. rewrite app_nil_r. destruct f; reflexivity. inversion F as [|? ? [A B] R]; subst.
  cbn [map see]. unfold want_read, COMMENTS, PICTURE. change (6 =? 4) with false. change (6 =? 6) with true. rewrite C. cbn [andb orb]. unfold read_block_into. cbn [b_content b_ty].
  pose proof (C56_flac_picture (fst x) (snd x) false (vo_mode (fo_vo o)) A B) as RT.
  destruct (as_flac_bytes (fst x) (snd x) false) as [|y d] eqn:E. { vm_compute in RT. discriminate. }
  change (6 =? COMMENTS) with false. change (6 =? PICTURE) with true. rewrite C. cbn [andb]. rewrite RT. cbn [bind]. rewrite IH by auto. cbn [ff_tag ff_pics ff_props].
  rewrite <- app_assoc. cbn [app]. rewrite <- surjective_pairing. reflexivity.
Qed.

(** ** What stands before the marker *)
Lemma flag_bit : forall b k, flag b (2 ^ k) = N.testbit b k.
Proof.
  intros. unfold flag. destruct (N.testbit b k) eqn:E.
  - apply N.eqb_eq. apply N.bits_inj. intro i. rewrite N.land_spec. destruct (N.eq_dec i k).
    + subst. now rewrite E.
    + rewrite N.pow2_bits_false by auto. apply andb_false_r.
  - apply N.eqb_neq. intro X. apply (f_equal (fun x => N.testbit x k)) in X. rewrite N.land_spec, E, N.pow2_bits_true in X. discriminate.
Qed.
Lemma flag6 : forall b, flag b 0x40 = N.testbit b 6. Proof. intros. apply (flag_bit b 6). Qed.
Lemma flag4 : forall b, flag b 0x10 = N.testbit b 4. Proof. intros. apply (flag_bit b 4). Qed.
Lemma prefix_found : forall pre, tag_prefix pre -> forall rest read, 10 <= lenN rest ->
  exists h t, find_id3v2 (pre ++ $"fLaC" ++ rest) 0 read None = Ok (h, t, lenN pre) /\ (pre = [] -> h = None).
Proof.
  intros pre P rest read L. inversion P; subst.
  - exists None, None. cbn [app]. pose proof (C53_unchanged_partial ($"fLaC" ++ rest) 0 read) as C.
    assert (X : takeN 3 (dropN 0 ($"fLaC" ++ rest)) <> $"ID3") by (rewrite dropN_0; rewrite takeN_app_le by (vm_compute; discriminate); vm_compute; discriminate).
    specialize (C ltac:(rewrite lenN_app; change (lenN ($"fLaC")) with 4; lia) ltac:(intros; congruence)).
    destruct (find_id3v2 ($"fLaC" ++ rest) 0 read None) as [[[[h|] t] p]|e|]; try tauto.
    destruct C as [-> ->]. auto.
  - destruct (C51_end_of_tag_partial [] major minor flags n (content ++ footer ++ $"fLaC" ++ rest) read) as (h & t & E & _); auto.
    { rewrite flag6. tauto. }
    { rewrite lenN_app. lia. }
    exists (Some h), t. split. 2: { intro X. apply (f_equal (@lenN N)) in X. unfold hdr_bytes in X. rewrite !lenN_app in X. rewrite be_enc_len in X. change (lenN (@nil N)) with 0 in X. lia. }
    cbn [app] in E. rewrite <- !app_assoc. change (lenN (@nil N)) with 0 in E. rewrite E. do 3 f_equal. unfold Id3v2HeaderThm.tag_len, hdr_bytes. rewrite !lenN_app, be_enc_len. rewrite H1, H2.
    change (lenN ($"ID3")) with 3. change (lenN [major; minor; flags]) with 3. rewrite flag4. destruct (negb (major =? 2) && N.testbit flags 4); lia.
Qed.
