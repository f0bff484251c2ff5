(** The properties of the audio after a tag is saved (C248): MP4 files. *)
From Verif Require Import Base BaseLemmas Str StrLemmas TextModel TextSpec TextProof Mode PictureModel FileModel MathModel FlacModel.
From Verif Require Import Mp4Model Mp4WriteModel Mp4Spec Mp4Proof Mp4Proof3 Mp4Proof4 Mp4Proof5 Mp4Proof6 Mp4Proof7 Mp4Proof8 Mp4Proof9 Mp4Ex Mp4PropsModel Mp4PropsSpec Mp4PropsProof3 Mp4PropsProof5.
From Verif Require Mp4Thm2 Mp4Thm3 Mp4PropsThm.

(** ** The track with its tables of offsets moved *)
Definition moved_af (d : Z) (from : N) (f : afile) (k1 k2 : list box) : afile :=
  mkAf (f_pre f) k1 (shd d from (f_t1 f)) (shd d from (f_a1 f)) (f_media f) (shd d from (f_a2 f)) (shd d from (f_i1 f)) (shd d from (f_s1 f)) (f_stsd f)
    (shd d from (f_s2 f)) (f_stts f) (shd d from (f_s3 f)) (shd d from (f_i2 f)) (shd d from (f_t2 f)) k2 (f_post f).
Lemma shd_leaf : forall d from id c, id <> $"stco" -> shd d from [leaf id c] = [leaf id c].
Proof.
  intros d from id c H. unfold shd, sh, leaf. destruct (d =? 0)%Z; [reflexivity|]. cbn [map shift_tables upd]. unfold shift_tables. cbn [upd]. destruct (list_eqb id ($"stco")) eqn:E; [|reflexivity].
  apply list_eqb_eq in E. contradiction.
Qed.
Lemma shd_node : forall d from id ks, Forall sound ks -> shd d from [node id ks] = [node id (shd d from ks)].
Proof.
  intros d from id ks H. pose proof (shd_len d from ks H) as L. unfold node. rewrite L. unfold shd, sh, shift_tables. destruct (d =? 0)%Z; reflexivity.
Qed.
Lemma sound_kids : forall id ks, sound (node id ks) -> Forall sound ks.
Proof. intros id ks H. unfold sound in H. apply every_node in H. exact (proj2 H). Qed.
Lemma sound_one : forall (b : box) l1 l2, Forall sound (l1 ++ [b] ++ l2) -> sound b.
Proof. intros b l1 l2 H. rewrite !Forall_app in H. destruct H as (_ & H & _). now inversion H. Qed.
Lemma moved_trak : forall d from f k1 k2, sound (f_trak f) -> shd d from [f_trak f] = [f_trak (moved_af d from f k1 k2)].
Proof.
  intros d from f k1 k2 H. pose proof (sound_kids _ _ H) as H1. pose proof (sound_kids _ _ (sound_one _ _ _ H1)) as H2.
  assert (H2' : sound (f_minf f)) by (apply Forall_app in H2; destruct H2 as [_ H2]; now inversion H2). pose proof (sound_kids _ _ H2') as H3. pose proof (sound_kids _ _ (sound_one _ _ _ H3)) as H4.
  unfold f_trak. rewrite (shd_node _ _ _ _ H1). rewrite !shd_app. unfold f_mdia. rewrite (shd_node _ _ _ _ H2). rewrite !shd_app. unfold f_minf. rewrite (shd_node _ _ _ _ H3). rewrite !shd_app. rewrite (shd_node _ _ _ _ H4).
  unfold f_handlers, f_stbl. rewrite !shd_app. rewrite !shd_leaf by discriminate. reflexivity.
Qed.
Lemma moved_handlers : forall d from f k1 k2, f_handlers (moved_af d from f k1 k2) = shd d from (f_handlers f).
Proof. intros. unfold f_handlers. rewrite !shd_app, shd_leaf by discriminate. reflexivity. Qed.
(** ** It sounds as before *)
Lemma shift_sounds : forall d from b, sounds (shift_tables d from b) = sounds b.
Proof.
  intros d from [s id c|s id ks]; [|reflexivity]. unfold shift_tables. cbn [upd sounds]. destruct (list_eqb id ($"stco")) eqn:E; [|reflexivity]. apply list_eqb_eq in E. subst id. reflexivity.
Qed.
Lemma map_sounds : forall d from l, existsb sounds (map (shift_tables d from) l) = existsb sounds l.
Proof. intros d from l. induction l as [|b l IH]; [reflexivity|]. cbn [map existsb]. now rewrite shift_sounds, IH. Qed.
Lemma shd_sounds : forall d from l, existsb sounds (shd d from l) = existsb sounds l.
Proof. intros. unfold shd. destruct (d =? 0)%Z; [reflexivity|apply map_sounds]. Qed.
Lemma shift_silent : forall d from b, silent_trak b -> silent_trak (shift_tables d from b).
Proof.
  intros d from b H s t1 s' mk t2 E N. destruct b as [s0 id c|s0 id ks]; [discriminate|]. unfold shift_tables in E. cbn [upd] in E. fold (shift_tables d from) in E. injection E as -> -> E.
  apply map_eq_app in E. destruct E as (k1 & k2 & -> & E1 & E2). destruct k2 as [|x k2]; [discriminate|]. cbn [map] in E2. injection E2 as EX E2.
  destruct x as [s1 id1 c1|s1 id1 mk0]; [discriminate|]. unfold shift_tables in EX. cbn [upd] in EX. fold (shift_tables d from) in EX. injection EX as -> -> <-.
  destruct (H s k1 s' mk0 k2 eq_refl) as (a & x & -> & N1 & NS & HX).
  { subst t1. unfold none_named in *. rewrite Forall_map in N. eapply Forall_impl; [|exact N]. intros y Y. cbn in Y. now rewrite shift_name in Y. }
  exists (map (shift_tables d from) a), (map (shift_tables d from) x). rewrite map_app. split; [reflexivity|]. split; [now apply none_map|]. split; [now rewrite map_sounds|].
  destruct HX as [->|(i & -> & HI)]; [now left|right]. exists (shift_tables d from i). split; [reflexivity|]. now rewrite shift_name.
Qed.
Lemma shd_silent : forall d from l, Forall silent_trak l -> Forall silent_trak (shd d from l).
Proof. intros. unfold shd. destruct (d =? 0)%Z; auto. unfold sh. rewrite Forall_map. eapply Forall_impl; [|exact H]. intros; now apply shift_silent. Qed.
Lemma shd_calm : forall d from l, Forall quiet_trak l -> Forall quiet_trak (shd d from l).
Proof. intros. unfold shd. destruct (d =? 0)%Z; auto. unfold sh. rewrite Forall_map. eapply Forall_impl; [|exact H]. intros; now apply shift_quiet. Qed.
Lemma moved_ok : forall o d from f k1 k2, afile_ok o f -> boxes_ok (f_top (moved_af d from f k1 k2)) -> (mo_tags o = false \/ none_named ($"udta") k1) -> Forall quiet_trak k1 -> Forall silent_trak k1 -> afile_ok o (moved_af d from f k1 k2).
Proof.
  intros o d from f k1 k2 (HO & HF & N1 & _ & _ & _ & N2 & N3 & HH & N4 & HM & N5 & N6 & N7 & HT) OK NU HQ HS. split; [exact OK|]. split.
  { unfold f_top in *. cbn [moved_af f_pre]. destruct (f_pre f) as [|b pre]; [contradiction|exact HF]. }
  split; [exact N1|]. split; [exact NU|]. split; [exact HQ|]. split; [exact HS|]. split; [now apply shd_named|]. rewrite moved_handlers. split; [now apply shd_named|]. split; [now rewrite shd_sounds|].
  split; [now apply shd_named|]. split; [exact HM|]. split; [now apply shd_named|]. cbn [moved_af f_s1 f_s2 f_s3]. rewrite <- !shd_app. split; [now apply shd_named|]. split; [now apply shd_named|exact HT].
Qed.
Lemma mdat_other : forall a s id ks b, mdat_size (a ++ Node s id ks :: b) = mdat_size (a ++ b).
Proof. intros a s id ks b. induction a as [|[s0 i0 c|s0 i0 k0] a IH]; cbn [app mdat_size]; [reflexivity| |exact IH]. destruct (list_eqb i0 ($"mdat")); [reflexivity|exact IH]. Qed.
Lemma moved_mdat : forall d from f k1 k2, mdat_size (f_top (moved_af d from f k1 k2)) = mdat_size (f_top f).
Proof. intros. unfold f_top, node. cbn [moved_af f_pre f_post app]. now rewrite !mdat_other. Qed.
(** ** The brand is that of the first atom *)
Lemma verify_same : forall b l l' m, boxes_ok (b :: l) -> boxes_ok (b :: l') -> ftyp_first (b :: l) ->
  exists s r r', verify_mp4 (encs (b :: l)) m (atom_reader (encs (b :: l))) = Ok (s, r) /\ verify_mp4 (encs (b :: l')) m (atom_reader (encs (b :: l'))) = Ok (s, r').
Proof.
  assert (V : forall sz c l m s rest, boxes_ok (Leaf sz ($"ftyp") c :: l) -> c = utf8_enc s ++ rest -> lenN (utf8_enc s) = 4 -> str_ok s ->
    exists r, verify_mp4 (encs (Leaf sz ($"ftyp") c :: l)) m (atom_reader (encs (Leaf sz ($"ftyp") c :: l))) = Ok (trim_end_nulls s, r)).
  { intros sz c l m s rest HO -> HL HS. inversion HO as [|? ? HB _]; subst. cbn [box_ok] in HB. destruct HB as (-> & HB & HI & HD & _).
    set (data := encs (Leaf (8 + lenN (utf8_enc s ++ rest)) ($"ftyp") (utf8_enc s ++ rest) :: l)).
    assert (IN : inside data (atom_reader data) (sbox ($"ftyp") (utf8_enc s ++ rest) ++ encs l)) by exact (inside_start data).
    unfold verify_mp4. rewrite (inside_next _ _ _ _ _ m IN HI HD HB). cbn [bind a_ident a_len]. rewrite is_fourcc_refl. cbn [negb].
    rewrite lenN_app, HL. replace (8 + (4 + lenN rest) <? 12) with false by lia.
    apply inside_body in IN; [|reflexivity]. rewrite <- app_assoc in IN.
    pose proof (rd_inside _ _ _ _ IN) as RD. rewrite HL in RD. rewrite RD. cbn [bind].
    replace (8 + (4 + lenN rest) - 12) with (lenN rest) by lia. rewrite seek_adv. cbn [bind]. unfold utf8_decode. rewrite utf8_dec_enc by auto. eexists. reflexivity. }
  intros b l l' m H1 H2 HF. destruct b as [sz id c|]; [|contradiction]. cbn [ftyp_first] in HF. destruct HF as (-> & brand & s & rest & EC & HL & HS & HU). subst brand.
  destruct (V sz c l m s rest H1 EC HL HS) as (r & E1). destruct (V sz c l' m s rest H2 EC HL HS) as (r' & E2). eauto.
Qed.
Lemma brand_same : forall o f f' brand brand' tr tr' il il', afile_ok o f -> afile_ok o f' -> f_pre f' = f_pre f ->
  mp4_read (encs (f_top f)) o = Ok (brand, tr, il) -> mp4_read (encs (f_top f')) o = Ok (brand', tr', il') -> brand' = brand.
Proof.
  intros o f f' brand brand' tr tr' il il' (H1 & F1 & _) (H2 & _) EP R1 R2. unfold f_top in *. rewrite EP in *. destruct (f_pre f) as [|b pre]; [contradiction|].
  cbn [app] in *. destruct (verify_same b _ _ (mo_mode o) H1 H2 F1) as (s & r & r' & V1 & V2). unfold mp4_read in R1, R2. rewrite V1 in R1. rewrite V2 in R2. cbn [bind] in R1, R2.
  destruct (moov_find _ _ _ r) as [[x1 y1]|e|]; cbn [bind] in R1; try discriminate. destruct (moov_parse _ _ _ _ _ _) as [[x2 y2]|e|] in R1; cbn [bind] in R1; try discriminate.
  destruct (moov_find _ _ _ r') as [[x3 y3]|e|]; cbn [bind] in R2; try discriminate. destruct (moov_parse _ _ _ _ _ _) as [[x4 y4]|e|] in R2; cbn [bind] in R2; try discriminate. congruence.
Qed.
(** ** Everything but the overall bit rate *)
Definition same_mp4 (p q : mp4_props) : Prop := same_sound p q /\ q_audio p = q_audio q /\ q_ftyp p = q_ftyp q.
Lemma rates_same : forall len len' n scale dur stts p q, bit_rates len n scale dur stts p = Ok q -> len' < 2 ^ 61 -> exists q', bit_rates len' n scale dur stts p = Ok q' /\ same_mp4 q q'.
Proof.
  intros len len' n scale dur stts p q H HL. unfold bit_rates, U64_MAX in *. set (p1 := match stts with Some [1] | None => p | Some _ => _ end) in *.
  destruct (q_duration p1 =? 0); [injection H as <-; eexists; split; [reflexivity|repeat split]|].
  destruct (18446744073709551615 <? len * 8); [discriminate|]. replace (18446744073709551615 <? len' * 8) with false by lia. cbv zeta in *. change (q_audio (set_overall ?x p1)) with (q_audio p1) in *.
  destruct (q_audio p1) as [[|k]|] eqn:EA.
  - destruct (18446744073709551615 <? n * 8); [discriminate|]. injection H as <-. eexists. split; [reflexivity|repeat split].
  - injection H as <-. eexists. split; [reflexivity|repeat split].
  - destruct (18446744073709551615 <? n * 8); [discriminate|]. injection H as <-. eexists. split; [reflexivity|repeat split].
Qed.
Lemma all_same : forall o f f' il il' brand brand' tr tr' p, f_pre f' = f_pre f -> f_media f' = f_media f -> f_stsd f' = f_stsd f -> f_stts f' = f_stts f -> mdat_size (f_top f') = mdat_size (f_top f) ->
  afile_ok o f -> afile_ok o f' -> mo_props o = true ->
  mp4_read (encs (f_top f)) o = Ok (brand, tr, il) -> mp4_read (encs (f_top f')) o = Ok (brand', tr', il') -> lenN (encs (f_top f')) < 2 ^ 61 ->
  mp4_read_all (encs (f_top f)) o = Ok (il, p) -> exists p', mp4_read_all (encs (f_top f')) o = Ok (il', p') /\ same_mp4 p p'.
Proof.
  intros o f f' il il' brand brand' tr tr' p EP EM ES ET ED A1 A2 HP R1 R2 HL H. pose proof (brand_same o f f' _ _ _ _ _ _ A1 A2 EP R1 R2) as ->.
  unfold mp4_read_all in *. rewrite R1 in H. rewrite R2. cbn [bind] in *. rewrite HP in *. rewrite (props_upto o f brand tr il A1 HP R1) in H. rewrite (props_upto o f' brand tr' il' A2 HP R2).
  rewrite EM. destruct (timed (f_media f)) as [p0|e|]; cbn [bind] in *; try discriminate. unfold rest_of in *.
  rewrite ES, EM, ET, ED.
  destruct (read_stsd (f_stsd f) (mo_mode o) p0) as [p1|e|]; cbn [bind] in *; try discriminate.
  destruct (h_duration (f_media f) =? 0); [cbn [bind] in *; injection H as <-; eexists; split; [reflexivity|repeat split]|].
  destruct (mdat_size (f_top f)) as [n|].
  - destruct (bit_rates _ _ _ _ _ p1) as [q|e|] eqn:EB in H; cbn [bind] in H; try discriminate. injection H as <-.
    destruct (rates_same _ (lenN (encs (f_top f'))) _ _ _ _ _ _ EB HL) as (q' & E' & (S1 & S2 & S3)). rewrite E'. cbn [bind]. eexists. split; [reflexivity|]. split; [exact S1|]. split; [exact S2|reflexivity].
  - destruct (is_strict (mo_mode o)); cbn [bind] in *; [discriminate|]. injection H as <-. eexists. split; [reflexivity|repeat split].
Qed.

(** ** C248 for MP4: the audio track before the tag *)
Definition udta_of (u1 : list box) (meta : bytes) (u2 : list box) : box := node ($"udta") (u1 ++ [leaf ($"meta") meta] ++ u2).
(** When the new tag can be read again, if tags are read *)
Definition read_again (o : mopts) (tag : list atom) (k1 u1 a0 b0 u2 k2 : list box) : Prop :=
  mo_tags o = true -> Forall atom_ok tag /\ tag <> [] /\ Forall (kept o) tag /\ Mp4Thm2.readable o k1 u1 a0 b0 u2 k2 /\ a0 <> [].
Theorem C248_mp4_partial : forall o f q1 u1 vers a0 f1 old f2 b0 u2 k2 tag m padding I, afile_ok o f ->
  f_k2 f = q1 ++ [udta_of u1 (vers ++ encs (a0 ++ f1 ++ old :: f2 ++ b0)) u2] ++ k2 ->
  Mp4Thm2.saveable (f_pre f) (f_k1 f ++ [f_trak f] ++ q1) u1 vers a0 f1 old f2 b0 u2 k2 (f_post f) -> build_ilst tag = Ok I -> Mp4Thm2.padding_ok padding ->
  lenN (encs (f_top f)) + lenN I + Mp4Thm2.max_pad padding < 2 ^ 32 -> mo_props o = true -> Forall quiet_trak (f_trak f :: q1 ++ k2) ->
  read_again o tag (f_k1 f ++ [f_trak f] ++ q1) u1 a0 b0 u2 k2 ->
  exists log, mp4_write (encs (f_top f)) tag m padding = Ok log /\
    forall il p, mp4_read_all (encs (f_top f)) o = Ok (il, p) ->
      exists p', mp4_read_all (apply_log (encs (f_top f)) log) o = Ok (if mo_tags o then Some tag else None, p') /\ same_mp4 p p'.
Proof.
  intros o f q1 u1 vers a0 f1 old f2 b0 u2 k2 tag m padding I HA EK HS HI HP HL PR QT RA. set (meta := vers ++ encs (a0 ++ f1 ++ old :: f2 ++ b0)) in *.
  assert (TOP : f_top f = mp4_file (f_pre f) (f_k1 f ++ [f_trak f] ++ q1) u1 meta u2 k2 (f_post f)) by (unfold f_top, mp4_file; rewrite EK; unfold udta_of; now rewrite <- !app_assoc).
  rewrite TOP in HL. destruct (Mp4Thm2.C116_saved _ _ _ _ _ _ _ _ _ _ _ _ tag m padding I HS HI HP HL) as (kids' & d & upto & HK & HW). cbv zeta in HW. fold meta in HW. rewrite <- TOP in HW.
  set (from := meta_at (f_pre f) (f_k1 f ++ [f_trak f] ++ q1) u1 + 8 + lenN (vers ++ encs upto)) in *.
  pose proof HS as ((HO & HFT & N1 & N2 & N3 & HIK & HMF) & HTF & HOF & HOLD & HN & F1 & F2 & NA & NB).
  pose proof (Mp4Thm2.shd_sound _ _ _ _ _ _ _ HO HOF) as SO. rewrite (Forall_app _ (f_k1 f ++ [f_trak f] ++ q1)) in SO. destruct SO as (S1 & SO). rewrite !Forall_app in SO. destruct SO as (S2 & S3 & S4).
  pose proof (sound_one _ _ _ S1) as ST.
  set (k2' := shd d from q1 ++ [udta_of (shd d from u1) (vers ++ kids') (shd d from u2)] ++ shd d from k2). set (f' := moved_af d from f (shd d from (f_k1 f)) k2').
  assert (TOP' : f_top f' = mp4_file (f_pre f) (shd d from (f_k1 f ++ [f_trak f] ++ q1)) (shd d from u1) (vers ++ kids') (shd d from u2) (shd d from k2) (f_post f)).
  { unfold f_top, mp4_file. rewrite !shd_app, (moved_trak d from f (shd d from (f_k1 f)) k2' ST). fold f'. change (f_pre f') with (f_pre f). change (f_post f') with (f_post f). change (f_k1 f') with (shd d from (f_k1 f)). change (f_k2 f') with k2'. unfold k2', udta_of. now rewrite <- !app_assoc. }
  rewrite <- TOP' in HW. eexists. split; [exact HW|]. intros il p HR. rewrite Mp4Thm2.rewritten.
  pose proof (file_parts _ _ _ _ _ _ _ HO) as PARTS. cbv zeta in PARTS. destruct PARTS as (P1 & P2 & P3 & P4 & P5 & P6 & PU & PM & LS & LU & LM & PMV).
  assert (MS : moov_size (shd d from (f_k1 f ++ [f_trak f] ++ q1)) (udta_size (shd d from u1) (8 + lenN (vers ++ kids')) (shd d from u2)) (shd d from k2) + lenN (encs (f_pre f)) + lenN (encs (f_post f)) < 2 ^ 32).
  { unfold moov_size, udta_size. rewrite !shd_len by auto. pose proof (Mp4Thm2.new_kids_bound _ _ _ _ _ _ _ _ _ _ HK) as LB.
    rewrite file_lay in HL. unfold lay in HL. rewrite !lenN_app, !be4_len in HL. rewrite lenN_app. unfold meta in HL. rewrite lenN_app in HL. change (lenN ($"moov")) with 4 in HL. change (lenN ($"udta")) with 4 in HL. change (lenN ($"meta")) with 4 in HL. 
    rewrite !encs_app, !lenN_app in *. lia. }
  assert (OK' : boxes_ok (f_top f')) by (rewrite TOP'; apply file_ok; auto using shd_ok; lia).
  assert (HA' : afile_ok o f').
  { pose proof HA as (_ & _ & _ & NU & HQ & HSI & _). apply moved_ok; [exact HA|exact OK'| |now apply shd_calm|now apply shd_silent]. destruct NU as [NU|NU]; [now left|right]. now apply shd_named. }
  assert (L' : lenN (encs (f_top f')) < 2 ^ 61).
  { rewrite TOP', file_lay. unfold lay. rewrite !lenN_app, !be4_len. unfold moov_size, udta_size in MS. rewrite lenN_app in MS. change (lenN ($"moov")) with 4. change (lenN ($"udta")) with 4. change (lenN ($"meta")) with 4. lia. }
  assert (R0 : exists brand tr, mp4_read (encs (f_top f)) o = Ok (brand, tr, il)).
  { unfold mp4_read_all in HR. destruct (mp4_read (encs (f_top f)) o) as [[[b t] i]|e|]; cbn [bind] in HR; try discriminate. rewrite PR in HR. destruct (mp4_properties _ _ _) as [q|e|]; cbn [bind] in HR; try discriminate. injection HR as -> _. eauto. }
  assert (R1 : exists brand tr, mp4_read (encs (f_top f')) o = Ok (brand, tr, if mo_tags o then Some tag else None)).
  { destruct (mo_tags o) eqn:ET.
    - destruct (RA ET) as (T1 & T2 & T3 & T4 & T5).
      destruct (Mp4Thm2.C116_read_back _ _ _ _ _ _ _ _ _ _ _ _ tag m padding I o HS HI HP HL T1 T2 T3 T4 T5) as (log & brand & tr & EW & ER). fold meta in EW, ER. rewrite <- TOP in EW, ER.
      rewrite HW in EW. injection EW as <-. rewrite Mp4Thm2.rewritten in ER. eauto.
    - apply (readable_quiet o f' HA' PR); [now left|]. inversion QT as [|? ? Q1 Q2]; subst. apply Forall_app in Q2. destruct Q2 as [Q2 Q3]. constructor.
      + assert (X : Forall quiet_trak (shd d from [f_trak f])) by (apply shd_calm; constructor; [exact Q1|constructor]). rewrite (moved_trak d from f (shd d from (f_k1 f)) k2' ST) in X. now inversion X.
      + change (f_k2 f') with k2'. unfold k2'. rewrite !Forall_app. split; [now apply shd_calm|]. split; [|now apply shd_calm]. constructor; [|constructor]. intros E. discriminate E. }
  destruct R0 as (brand & tr & R0). destruct R1 as (brand' & tr' & R1). exact (all_same o f f' il _ brand brand' tr tr' p eq_refl eq_refl eq_refl eq_refl (moved_mdat d from f _ k2') HA HA' PR R0 R1 L' HR).
Qed.

(** A tag before the audio track, read without tags *)
Theorem C248_mp4_before_partial : forall o f q1 u1 vers a0 f1 old f2 b0 u2 q2 tag m padding I, afile_ok o f ->
  f_k1 f = q1 ++ [udta_of u1 (vers ++ encs (a0 ++ f1 ++ old :: f2 ++ b0)) u2] ++ q2 ->
  Mp4Thm2.saveable (f_pre f) q1 u1 vers a0 f1 old f2 b0 u2 (q2 ++ [f_trak f] ++ f_k2 f) (f_post f) -> build_ilst tag = Ok I -> Mp4Thm2.padding_ok padding ->
  lenN (encs (f_top f)) + lenN I + Mp4Thm2.max_pad padding < 2 ^ 32 -> mo_props o = true -> mo_tags o = false -> Forall quiet_trak (f_trak f :: f_k2 f) ->
  exists log, mp4_write (encs (f_top f)) tag m padding = Ok log /\
    forall p, mp4_read_all (encs (f_top f)) o = Ok (None, p) -> exists p', mp4_read_all (apply_log (encs (f_top f)) log) o = Ok (None, p') /\ same_mp4 p p'.
Proof.
  intros o f q1 u1 vers a0 f1 old f2 b0 u2 q2 tag m padding I HA EK HS HI HP HL PR TG QT. set (meta := vers ++ encs (a0 ++ f1 ++ old :: f2 ++ b0)) in *. set (k2 := q2 ++ [f_trak f] ++ f_k2 f) in *.
  assert (TOP : f_top f = mp4_file (f_pre f) q1 u1 meta u2 k2 (f_post f)) by (unfold f_top, mp4_file, k2; rewrite EK; unfold udta_of; now rewrite <- !app_assoc).
  rewrite TOP in HL. destruct (Mp4Thm2.C116_saved _ _ _ _ _ _ _ _ _ _ _ _ tag m padding I HS HI HP HL) as (kids' & d & upto & HK & HW). cbv zeta in HW. fold meta in HW. rewrite <- TOP in HW.
  set (from := meta_at (f_pre f) q1 u1 + 8 + lenN (vers ++ encs upto)) in *.
  pose proof HS as ((HO & HFT & N1 & N2 & N3 & HIK & HMF) & HTF & HOF & HOLD & HN & F1 & F2 & NA & NB).
  pose proof (Mp4Thm2.shd_sound _ _ _ _ _ _ _ HO HOF) as SO. rewrite Forall_app in SO. destruct SO as (S1 & SO). rewrite Forall_app in SO. destruct SO as (S2 & SO). rewrite Forall_app in SO. destruct SO as (S3 & S4).
  pose proof (sound_one _ _ _ S4) as ST.
  set (k1' := shd d from q1 ++ [udta_of (shd d from u1) (vers ++ kids') (shd d from u2)] ++ shd d from q2). set (f' := moved_af d from f k1' (shd d from (f_k2 f))).
  assert (TOP' : f_top f' = mp4_file (f_pre f) (shd d from q1) (shd d from u1) (vers ++ kids') (shd d from u2) (shd d from k2) (f_post f)).
  { unfold f_top, mp4_file, k2. rewrite !shd_app, (moved_trak d from f k1' (shd d from (f_k2 f)) ST). fold f'. change (f_pre f') with (f_pre f). change (f_post f') with (f_post f). change (f_k1 f') with k1'. change (f_k2 f') with (shd d from (f_k2 f)). unfold k1', udta_of. now rewrite <- !app_assoc. }
  rewrite <- TOP' in HW. eexists. split; [exact HW|]. intros p HR. rewrite Mp4Thm2.rewritten.
  pose proof (file_parts _ _ _ _ _ _ _ HO) as PARTS. cbv zeta in PARTS. destruct PARTS as (P1 & P2 & P3 & P4 & P5 & P6 & PU & PM & LS & LU & LM & PMV).
  assert (MS : moov_size (shd d from q1) (udta_size (shd d from u1) (8 + lenN (vers ++ kids')) (shd d from u2)) (shd d from k2) + lenN (encs (f_pre f)) + lenN (encs (f_post f)) < 2 ^ 32).
  { unfold moov_size, udta_size. rewrite !shd_len by auto. pose proof (Mp4Thm2.new_kids_bound _ _ _ _ _ _ _ _ _ _ HK) as LB.
    rewrite file_lay in HL. unfold lay in HL. rewrite !lenN_app, !be4_len in HL. rewrite lenN_app. unfold meta in HL. rewrite lenN_app in HL. change (lenN ($"moov")) with 4 in HL. change (lenN ($"udta")) with 4 in HL. change (lenN ($"meta")) with 4 in HL. lia. }
  assert (OK' : boxes_ok (f_top f')) by (rewrite TOP'; apply file_ok; auto using shd_ok; lia).
  assert (HA' : afile_ok o f').
  { pose proof HA as (_ & _ & _ & _ & HQ & HSI & _). rewrite EK in HQ, HSI. apply Forall_app in HQ. destruct HQ as (HQ1 & HQ2). apply Forall_app in HQ2. destruct HQ2 as (_ & HQ2). apply Forall_app in HSI. destruct HSI as (HS1 & HS2). apply Forall_app in HS2. destruct HS2 as (_ & HS2).
    apply moved_ok; [exact HA|exact OK'|now left| |]; unfold k1'; rewrite !Forall_app.
    - split; [now apply shd_calm|]. split; [|now apply shd_calm]. constructor; [intros E; discriminate E|constructor].
    - split; [now apply shd_silent|]. split; [|now apply shd_silent]. constructor; [intros s t1 s' mk t2 E; discriminate E|constructor]. }
  assert (L' : lenN (encs (f_top f')) < 2 ^ 61).
  { rewrite TOP', file_lay. unfold lay. rewrite !lenN_app, !be4_len. unfold moov_size, udta_size in MS. rewrite lenN_app in MS. change (lenN ($"moov")) with 4. change (lenN ($"udta")) with 4. change (lenN ($"meta")) with 4. lia. }
  destruct (readable_quiet o f HA PR (or_introl TG) QT) as (b1 & t1 & R1).
  assert (QT' : Forall quiet_trak (f_trak f' :: f_k2 f')).
  { inversion QT as [|? ? Q1 Q2]; subst. constructor; [|now apply shd_calm].
    assert (X : Forall quiet_trak (shd d from [f_trak f])) by (apply shd_calm; constructor; [exact Q1|constructor]). rewrite (moved_trak d from f k1' (shd d from (f_k2 f)) ST) in X. now inversion X. }
  destruct (readable_quiet o f' HA' PR (or_introl TG) QT') as (b2 & t2 & R2).
  exact (all_same o f f' None None b1 b2 t1 t2 p eq_refl eq_refl eq_refl eq_refl (moved_mdat d from f k1' _) HA HA' PR R1 R2 L' HR).
Qed.
(** ** The first tag: it is put before all tracks *)
Definition with_tag (f : afile) (I : bytes) : afile :=
  mkAf (f_pre f) (udta_of [] (Mp4Thm3.new_meta I) [] :: f_k1 f) (f_t1 f) (f_a1 f) (f_media f) (f_a2 f) (f_i1 f) (f_s1 f) (f_stsd f) (f_s2 f) (f_stts f) (f_s3 f) (f_i2 f) (f_t2 f) (f_k2 f) (f_post f).
Theorem C248_mp4_added_partial : forall o f tag m padding I, afile_ok o f -> none_named ($"udta") (f_k1 f ++ [f_trak f] ++ f_k2 f) -> build_ilst tag = Ok I -> I <> [] ->
  lenN (encs (f_top f)) + lenN I + 61 < 2 ^ 32 -> mo_props o = true -> mo_tags o = false -> Forall quiet_trak (f_trak f :: f_k2 f) ->
  exists log, mp4_write (encs (f_top f)) tag m padding = Ok log /\ apply_log (encs (f_top f)) log = encs (f_top (with_tag f I)) /\
    forall p, mp4_read_all (encs (f_top f)) o = Ok (None, p) -> exists p', mp4_read_all (encs (f_top (with_tag f I))) o = Ok (None, p') /\ same_mp4 p p'.
Proof.
  intros o f tag m padding I HA NU HI NE HL PR TG QT. pose proof HA as (HO & HF & N1 & _ & HQ & HS & HREST). set (ks := f_k1 f ++ [f_trak f] ++ f_k2 f) in *.
  assert (TOP : f_top f = Mp4Thm3.bare (f_pre f) ks (f_post f)) by reflexivity. pose proof HO as HO'. rewrite TOP in HO'. destruct (Mp4Thm3.bare_parts _ _ _ HO') as (P1 & P2 & P3 & P4).
  assert (LT : lenN (encs (f_top f)) = lenN (encs (f_pre f)) + (8 + lenN (encs ks)) + lenN (encs (f_post f))).
  { rewrite TOP. unfold Mp4Thm3.bare. rewrite !encs_app, encs_one, !lenN_app, Mp4Proof7.node_len by reflexivity. lia. }
  assert (HW := Mp4Thm3.C118_udta_added (f_pre f) ks (f_post f) tag m padding I). rewrite <- TOP in HW. specialize (HW HO HF N1 NU HI NE ltac:(lia)).
  assert (TOP' : f_top (with_tag f I) = mp4_file (f_pre f) [] [] (Mp4Thm3.new_meta I) [] ks (f_post f)) by reflexivity. rewrite <- TOP' in HW.
  eexists. split; [exact HW|]. split; [apply Mp4Thm2.rewritten|]. intros p HR. set (f' := with_tag f I) in *.
  assert (LM : lenN (Mp4Thm3.new_meta I) <= lenN I + 45) by (unfold Mp4Thm3.new_meta; rewrite ?lenN_app; vm_compute (lenN _); lia).
  assert (OK' : boxes_ok (f_top f')).
  { rewrite TOP'. apply file_ok; auto; try constructor. unfold moov_size, udta_size. change (lenN (encs [])) with 0. lia. }
  assert (HA' : afile_ok o f').
  { split; [exact OK'|]. split. { unfold f_top in *. change (f_pre f') with (f_pre f). destruct (f_pre f); [contradiction|exact HF]. } split; [exact N1|]. split; [now left|].
    split. { constructor; [intros E; discriminate E|exact HQ]. } split; [|exact HREST]. constructor; [intros s t1 s' mk t2 E; discriminate E|exact HS]. }
  destruct (readable_quiet o f HA PR (or_introl TG) QT) as (b1 & t1 & R1). destruct (readable_quiet o f' HA' PR (or_introl TG) QT) as (b2 & t2 & R2).
  apply (all_same o f f' None None b1 b2 t1 t2 p); auto.
  - unfold f_top, node. change (f_pre f') with (f_pre f). change (f_post f') with (f_post f). cbn [app]. now rewrite !mdat_other.
  - rewrite TOP', file_lay. unfold lay. rewrite !lenN_app, !be4_len. change (lenN (encs [])) with 0. change (lenN ($"moov")) with 4. change (lenN ($"udta")) with 4. change (lenN ($"meta")) with 4. lia.
Qed.

(** ** Example: one second of AAC; the tag grows by 12 bytes, the chunk moves *)
Definition sound_af (off : N) (title : str) : afile :=
  mkAf [ftyp_ex] [leaf ($"mvhd") [9]] [leaf ($"tkhd") [1]] [Mp4PropsThm.ex_hdlr ($"soun")] Mp4PropsThm.ex_media [] [] [] (Mp4PropsThm.mp4a_stsd 1 Mp4PropsThm.ex_entry Mp4PropsThm.ex_stream [0x12; 0x10] [] []) [] [(43, 1024)] [stco_ex [off]] [] []
    [udta_of [] ([0; 0; 0; 0] ++ encs ([hdlr_ex] ++ [] ++ ilst_ex title :: [free_ex 4] ++ [])) []] [leaf ($"mdat") (repeat 7 200)].
Example C248_mp4_ex : exists log p p', mp4_write (encs (f_top (sound_af 500 ($"ab")))) [nam ($"a longer title")] Strict (Some 16) = Ok log /\
  apply_log (encs (f_top (sound_af 500 ($"ab")))) log = encs (f_top (sound_af 512 ($"a longer title"))) /\
  mp4_read_all (encs (f_top (sound_af 500 ($"ab")))) read_ex = Ok (Some [nam ($"ab")], p) /\ mp4_read_all (encs (f_top (sound_af 512 ($"a longer title")))) read_ex = Ok (Some [nam ($"a longer title")], p') /\
  q_duration p = 1000 /\ q_rate p = Some 44100 /\ q_channels p = Some 2 /\ q_codec p = Some AAC /\ q_overall p = Some 4 /\ q_audio p' = q_audio p /\ q_duration p' = 1000 /\ q_rate p' = Some 44100 /\ q_channels p' = Some 2 /\ q_codec p' = Some AAC.
Proof. eexists _, _, _. split; [vm_compute; reflexivity|]. split; [vm_compute; reflexivity|]. split; [vm_compute; reflexivity|]. split; [vm_compute; reflexivity|]. repeat split. Qed.
(** The first tag of a file: the properties are the same, though the offset of the chunk is not adjusted (C118). *)
Definition bare_af : afile :=
  mkAf [ftyp_ex] [leaf ($"mvhd") [9]] [leaf ($"tkhd") [1]] [Mp4PropsThm.ex_hdlr ($"soun")] Mp4PropsThm.ex_media [] [] [] (Mp4PropsThm.mp4a_stsd 1 Mp4PropsThm.ex_entry Mp4PropsThm.ex_stream [0x12; 0x10] [] []) [] [(43, 1024)] [stco_ex [400]] [] []
    [] [leaf ($"mdat") (repeat 7 200)].
Example C248_mp4_added_ex : exists log p p', mp4_write (encs (f_top bare_af)) [nam ($"ab")] Strict None = Ok log /\
  mp4_read_all (encs (f_top bare_af)) (mkMo Strict false true true true) = Ok (None, p) /\ mp4_read_all (apply_log (encs (f_top bare_af)) log) (mkMo Strict false true true true) = Ok (None, p') /\
  q_duration p = 1000 /\ q_duration p' = 1000 /\ q_audio p' = q_audio p /\ q_overall p = Some 3 /\ q_overall p' = Some 4.
Proof. eexists _, _, _. split; [vm_compute; reflexivity|]. split; [vm_compute; reflexivity|]. split; [vm_compute; reflexivity|]. repeat split. Qed.
(** Saving again: now the tag is before the track. *)
Definition twice (t1 t2 : str) : option bytes :=
  match mp4_write (encs (f_top bare_af)) [nam t1] Strict None with
  | Ok l1 => let d := apply_log (encs (f_top bare_af)) l1 in match mp4_write d [nam t2] Strict None with Ok l2 => Some (apply_log d l2) | _ => None end
  | _ => None
  end.
Example C248_mp4_before_ex : exists d p, twice ($"ab") ($"a longer title") = Some d /\ mp4_read_all d (mkMo Strict false true true true) = Ok (None, p) /\ q_duration p = 1000 /\ q_audio p = Some 1 /\ q_rate p = Some 44100 /\ q_channels p = Some 2.
Proof. eexists _, _. split; [vm_compute; reflexivity|]. split; [vm_compute; reflexivity|]. repeat split. Qed.
Ltac ne := let E := fresh in intro E; vm_compute in E; discriminate E.
Ltac nes := repeat (first [apply Forall_cons; [ne|] | apply Forall_nil]).
Example C248_mp4_can : afile_ok read_ex (sound_af 500 ($"ab")) /\
  Mp4Thm2.saveable [ftyp_ex] ([leaf ($"mvhd") [9]] ++ [f_trak (sound_af 500 ($"ab"))] ++ []) [] [0; 0; 0; 0] [hdlr_ex] [] (ilst_ex ($"ab")) [free_ex 4] [] [] [] [leaf ($"mdat") (repeat 7 200)] /\
  Forall quiet_trak [f_trak (sound_af 500 ($"ab"))].
Proof.
  assert (OK : boxes_ok (f_top (sound_af 500 ($"ab")))) by (apply boxesb_ok; vm_compute; reflexivity).
  assert (FT : ftyp_first (f_top (sound_af 500 ($"ab")))).
  { split; [reflexivity|]. exists ($"M4A "), ($"M4A "), [0; 0; 2; 0]. split; [reflexivity|]. split; [reflexivity|]. split; [repeat constructor; unfold scalar; lia|reflexivity]. }
  split; [|split].
  - split; [exact OK|]. split; [exact FT|]. split; [nes|]. split; [right; nes|]. split; [constructor; [intros E; vm_compute in E; discriminate E|constructor]|].
    split; [constructor; [intros s t1 s' mk t2 E; discriminate E|constructor]|]. split; [nes|]. split; [nes|]. split; [vm_compute; reflexivity|]. split; [constructor|]. split; [repeat split; vm_compute; reflexivity|].
    split; [constructor|]. split; [nes|]. split; [nes|]. split; [vm_compute; reflexivity|]. constructor; [split; reflexivity|constructor].
  - unfold Mp4Thm2.saveable. cbv zeta. split; [|split; [|split; [|split; [|split; [|split; [|split; [|split]]]]]]].
    + split; [exact OK|]. split; [exact FT|]. split; [nes|]. split; [nes|]. split; [constructor|]. split; [|split].
      * repeat (constructor; [unfold item_ok; split; [reflexivity|]; split; [reflexivity|]; split; [split; [reflexivity|]; repeat (constructor; [cbn; lia|]); constructor|ne]|]). constructor.
      * right. split; [reflexivity|]. intros I. apply existsb_In in I. vm_compute in I. discriminate.
      * discriminate.
    + unfold mp4_file. cbn [app]. repeat (constructor; [cbn [every node leaf f_trak]; repeat split; ne|]). constructor.
    + repeat (constructor; [cbn [every offsets_ok]; repeat split; try ne; try discriminate|]). 2: constructor.
      cbn [box_name leaf stco_ex]. intros _. exists [500], [0; 0; 0; 0], []. repeat split. constructor; [reflexivity|constructor].
    + reflexivity.
    + nes.
    + constructor.
    + constructor; [reflexivity|constructor].
    + ne.
    + intros X. exact X.
  - constructor; [|constructor]. intros _. eexists _, _. split; [reflexivity|]. right. eexists [leaf ($"tkhd") [1]], _, []. split; [reflexivity|]. split; [nes|]. split; [reflexivity|]. split; constructor.
Qed.
Print Assumptions C248_mp4_partial.
Print Assumptions C248_mp4_added_partial.
Print Assumptions C248_mp4_before_partial.
