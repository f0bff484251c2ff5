(** MPEG-4 lossless audio (C192). *)
From Verif Require Import Base BaseLemmas Str StrLemmas Mode PictureModel FileModel MathModel MathThm FlacModel FlacThm MpegProof.
From Verif Require Import Mp4Model Mp4WriteModel Mp4Spec Mp4Proof Mp4Proof3 Mp4Proof4 Mp4Proof5 Mp4Proof6 Mp4Proof7 Mp4Proof8 Mp4PropsModel Mp4PropsSpec Mp4PropsProof Mp4PropsProof2 Mp4PropsProof3 Mp4PropsProof4 Mp4PropsProof5 Mp4PropsProof6 Mp4PropsThm.

(** A configuration of object type 36: 5 bits 31, 6 bits 4, 4 bits of index, 4 bits of channels, 5 bits to fill; then the configuration of ALS. *)
Record als := mkAls { w_index : N; w_conf : N; w_fill : N; w_rate : N; w_samples : N; w_channels : N; w_more : bytes }.
Definition als_ok (w : als) : Prop := w_index w < 15 /\ w_conf w < 16 /\ w_fill w < 32 /\ w_rate w < 2 ^ 32 /\ w_samples w < 2 ^ 32 /\ 1 <= w_channels w <= 2 ^ 16.
Definition als_config (w : als) : bytes :=
  [0xF8; 0x80 + w_index w * 2 + w_conf w / 8; w_conf w mod 8 * 32 + w_fill w] ++ [0] ++ $"ALS" ++ [0] ++ be_enc 4 (w_rate w) ++ be_enc 4 (w_samples w) ++ be_enc 2 (w_channels w - 1) ++ w_more w.
Lemma als_read : forall data q w rest p, als_ok w -> dropN q data = als_config w ++ rest ->
  if (w_channels w - 1) mod 256 =? 255 then specific_config data (at_pos data q) p = Panic
  else exists p', specific_config data (at_pos data q) p = Ok p' /\ q_type p' = Some 36 /\ q_rate p' = Some (w_rate w) /\ q_channels p' = Some ((w_channels w - 1) mod 256 + 1) /\ q_codec p' = q_codec p /\ q_duration p' = q_duration p /\ q_drm p' = q_drm p.
Proof.
  intros data q w rest p (H1 & H2 & H3 & H4 & H5 & H6) HD. unfold als_config in HD. set (b := 0x80 + w_index w * 2 + w_conf w / 8) in *. set (c := w_conf w mod 8 * 32 + w_fill w) in *. rewrite <- !app_assoc in HD.
  change ([0xF8; b; c]) with ([0xF8] ++ [b] ++ [c]) in HD. rewrite <- !app_assoc in HD. assert (D8 : w_conf w / 8 < 2) by (apply N.div_lt_upper_bound; lia).
  unfold specific_config.
  rewrite (at_own_raw data _ _ _ 1 HD) by reflexivity. cbn [bind]. apply drop_more with (n := 1) in HD; [|reflexivity].
  rewrite (at_own_raw data _ _ _ 1 HD) by reflexivity. cbn [bind]. apply drop_more with (n := 1) in HD; [|reflexivity]. rewrite !byte_raw.
  change (N.shiftr 0xF8 3 =? 31) with true. cbv zeta. cbn iota. change (N.land 0xF8 7) with 0. rewrite N.lor_0_l.
  assert (S5 : N.shiftr b 5 = 4). { rewrite N.shiftr_div_pow2. change (2 ^ 5) with 32. unfold b. symmetry. apply (N.div_unique _ 32 4 (w_index w * 2 + w_conf w / 8)); lia. } rewrite S5. change (32 + 4) with 36. change (negb (existsb (N.eqb 36) OBJECT_TYPES)) with false. cbn iota.
  assert (FI : N.land (N.shiftr b 1) 15 = w_index w).
  { change 15 with (N.ones 4). apply (field _ 1 4 4 (w_index w) (w_conf w / 8)); [change (2 ^ (1 + 4)) with 32; change (2 ^ 1) with 2; unfold b; lia|change (2 ^ 4) with 16; lia|change (2 ^ 1) with 2; lia]. }
  rewrite FI. replace (w_index w =? 15) with false by lia. rewrite (at_own_raw data _ _ _ 1 HD) by reflexivity. cbn [bind]. apply drop_more with (n := 1) in HD; [|reflexivity]. change (36 =? 36) with true. cbn iota.
  change ([0] ++ $"ALS" ++ [0] ++ ?x) with ((0 :: $"ALS" ++ [0]) ++ x) in HD.
  rewrite (at_exact data _ _ _ 5 HD) by reflexivity. cbn [bind]. apply drop_more with (n := 5) in HD; [|reflexivity]. rewrite list_eqb_refl.
  rewrite (at_own data _ 4 _ _ 4 HD) by (auto; change (256 ^ 4) with (2 ^ 32); lia). cbn [bind]. apply drop_more with (n := 4) in HD; [|now rewrite be_enc_len].
  change 4%Z with (Z.of_N 4). rewrite at_seek_cur. cbn [bind]. apply drop_more with (n := 4) in HD; [|now rewrite be_enc_len].
  rewrite (at_own data _ 2 _ _ 2 HD) by (auto; change (256 ^ 2) with (2 ^ 16); lia). cbn [bind].
  destruct (_ mod 256 =? 255); [reflexivity|]. eexists. split; [reflexivity|]. destruct (0 <? _); repeat split.
Qed.
Lemma als_codec : forall b, In b [0x40; 0x41; 0x66; 0x67; 0x68] -> codec_of b = Some AAC.
Proof. intros b H. cbn [In] in H. repeat destruct H as [<- |H]; try reflexivity. contradiction. Qed.
(** Rate and channels are those of the ALS configuration, whatever the index and the configuration before it say. *)
Theorem C192_als : forall o f il count e x w more rest, afile_ok o f -> complete o f -> readable o f il ->
  f_stsd f = mp4a_stsd count e x (als_config w) more rest -> 0 < count < 2 ^ 32 -> entry_ok e -> stream_ok x -> als_ok w -> w_channels w <= 255 -> In (x_codec x) [0x40; 0x41; 0x66; 0x67; 0x68] ->
  exists p, mp4_read_all (encs (f_top f)) o = Ok (il, p) /\ q_codec p = Some AAC /\ q_type p = Some 36 /\ q_rate p = Some (w_rate w) /\ q_channels p = Some (w_channels w).
Proof.
  intros o f il count e x w more rest HA HC HR ES HN HE HX HW HCH HK. pose proof (stsd_small o f HA) as SM. rewrite ES in SM. unfold mp4a_stsd in *.
  destruct (mp4a_inner _ _ _ _ _ _ SM eq_refl HE) as [L1 L2]. pose proof (als_codec _ HK) as EC.
  destruct (read_all_sound o f il (fun p p' => q_codec p' = Some AAC /\ q_type p' = Some 36 /\ q_rate p' = Some (w_rate w) /\ q_channels p' = Some (w_channels w)) HA HC HR)
    as (p & p1 & d & E & (S1 & S2 & S3 & S4 & S5 & S6 & S7) & H & HM).
  { intros p. rewrite ES.
    destruct (stsd_first count ($"mp4a") e (sbox ($"esds") (esds_bytes x (als_config w)) ++ more) rest (mo_mode o) p HN) as [EQ HD]; [idok|discriminate|exact L1|exact HE|]. rewrite EQ. unfold by_kind. rewrite list_eqb_refl.
    change (8 + 36) with 44. rewrite <- app_assoc in HD. destruct (mp4a_step _ (mo_mode o) _ x (als_config w) (more ++ rest) (entry_props e p) HD) as (q' & rest' & HQ & ->); [rewrite lenN_sbox in L2 by reflexivity; lia|exact HX|].
    pose proof (als_read _ _ w rest' (set_codec (codec_of (x_codec x)) (set_codec (Some AAC) (entry_props e p))) HW HQ) as AR. destruct HW as (W1 & W2 & W3 & W4 & W5 & W6). rewrite N.mod_small in AR by lia. destruct (N.eqb_spec (w_channels w - 1) 255); [lia|].
    destruct AR as (p' & -> & P1 & P2 & P3 & P4 & P5 & P6). cbn [bind]. eexists. split; [reflexivity|]. cbn [set_codec q_codec] in P4. rewrite EC in P4. replace (w_channels w - 1 + 1) with (w_channels w) in P3 by lia.
    destruct (_ || _); cbn [set_audio q_codec q_type q_rate q_channels]; auto. }
  exists p. split; [exact E|]. rewrite S1, S2, S4, S6. exact H.
Qed.
Definition ex_als (channels : N) : als := mkAls 4 0 0 192000 1000 channels [0; 0].
Example C192_als_example : match mp4_read_all (encs (f_top (ex_with (als_config (ex_als 2))))) (ex_opts Strict) with
  | Ok (_, p) => q_type p = Some 36 /\ q_rate p = Some 192000 /\ q_channels p = Some 2 | _ => False end /\ als_ok (ex_als 2).
Proof. split; [vm_compute; repeat split|]. repeat split; vm_compute; discriminate. Qed.
(** Of the 16 bits for the channels the lower eight count: 258 are reported as two, and 256 lead to a panic. *)
Theorem C192_als_refuted : mp4_read_all (encs (f_top (ex_with (als_config (ex_als 256))))) (ex_opts Strict) = Panic /\
  match mp4_read_all (encs (f_top (ex_with (als_config (ex_als 258))))) (ex_opts Strict) with Ok (_, p) => q_channels p = Some 2 | _ => False end /\ als_ok (ex_als 256) /\ als_ok (ex_als 258).
Proof. split; [vm_compute; reflexivity|]. split; [vm_compute; reflexivity|]. split; repeat split; vm_compute; discriminate. Qed.

(** ** Streams that are not described (C194) *)
(** Another version, another first descriptor, or another descriptor inside of it. *)
Inductive undescribed : bytes -> Prop :=
| another_version v more : 0 < v < 2 ^ 32 -> undescribed (be_enc 4 v ++ more)
| another_first t s more : t <> 3 -> desc_size s -> undescribed ([0; 0; 0; 0] ++ [t] ++ s ++ more)
| another_second t s s' i more : t <> 4 -> desc_size s -> lenN i = 3 -> desc_size s' -> undescribed ([0; 0; 0; 0] ++ [3] ++ s ++ i ++ [t] ++ s' ++ more).
Lemma undescribed_read : forall data m q b rest p, dropN q data = sbox ($"esds") b ++ rest -> lenN b + 8 < 2 ^ 32 -> undescribed b -> mp4a_properties data m (at_pos data q) p = Ok (set_codec (Some AAC) p).
Proof.
  intros data m q b rest p HD HL HU. destruct (at_next_sbox data m q ($"esds") _ rest HD) as [NX HE]; [idok|discriminate|lia|]. unfold mp4a_properties. rewrite NX. cbn [a_ident]. rewrite is_fourcc_refl. cbn [negb]. cbv zeta.
  destruct HU as [v more V|t s more T SZ|t s s' i more T SZ LI SZ']; rewrite <- !app_assoc in HE.
  - rewrite (at_own data _ 4 _ _ 4 HE) by (auto; change (256 ^ 4) with (2 ^ 32); lia). cbn [bind]. destruct (N.eqb_spec v 0); [lia|]. reflexivity.
  - rewrite (at_own_raw data _ _ _ 4 HE) by reflexivity. cbn [bind]. change (be_dec [0; 0; 0; 0]) with 0. cbn [N.eqb negb]. apply drop_more with (n := 4) in HE; [|reflexivity].
    rewrite (descriptor_read data _ t _ _ HE SZ). cbn [bind]. destruct (N.eqb_spec t 3); [contradiction|]. reflexivity.
  - rewrite (at_own_raw data _ _ _ 4 HE) by reflexivity. cbn [bind]. change (be_dec [0; 0; 0; 0]) with 0. cbn [N.eqb negb]. apply drop_more with (n := 4) in HE; [|reflexivity].
    rewrite (descriptor_read data _ 3 _ _ HE SZ). cbn [bind N.eqb Pos.eqb negb]. apply drop_more with (n := 1) in HE; [|reflexivity]. apply drop_more with (n := lenN s) in HE; [|reflexivity].
    change 3%Z with (Z.of_N 3). rewrite at_seek_cur. cbn [bind]. apply drop_more with (n := 3) in HE; [|exact LI].
    rewrite (descriptor_read data _ t _ _ HE SZ'). cbn [bind]. destruct (N.eqb_spec t 4); [contradiction|]. reflexivity.
Qed.
(** The rest is then known from the entry. *)
Theorem C194_undescribed : forall o f il count e b more rest, afile_ok o f -> complete o f -> readable o f il ->
  f_stsd f = stsd_of count (sbox ($"mp4a") (entry_bytes e ++ sbox ($"esds") b ++ more) ++ rest) -> 0 < count < 2 ^ 32 -> entry_ok e -> undescribed b -> n_channels e < 256 ->
  exists p, mp4_read_all (encs (f_top f)) o = Ok (il, p) /\ q_codec p = Some AAC /\ q_type p = None /\ q_rate p = Some (n_rate e / 2 ^ 16) /\ q_channels p = Some (n_channels e) /\ q_depth p = None /\ q_drm p = false /\ millis (f_media f) (q_duration p).
Proof.
  intros o f il count e b more rest HA HC HR ES HN HE HU HCH. pose proof (stsd_small o f HA) as SM. rewrite ES in SM.
  destruct (mp4a_inner _ _ _ _ _ _ SM eq_refl HE) as [L1 L2].
  destruct (read_all_sound o f il (fun p p' => p' = set_codec (Some AAC) (entry_props e p)) HA HC HR) as (p & p1 & d & E & (S1 & S2 & S3 & S4 & S5 & S6 & S7) & -> & HM).
  { intros p. eexists. split; [|reflexivity]. rewrite ES.
    destruct (stsd_first count ($"mp4a") e (sbox ($"esds") b ++ more) rest (mo_mode o) p HN) as [EQ HD]; [idok|discriminate|exact L1|exact HE|]. rewrite EQ. unfold by_kind. rewrite list_eqb_refl.
    change (8 + 36) with 44. rewrite <- app_assoc in HD. apply (undescribed_read _ _ _ b (more ++ rest)); auto. rewrite lenN_sbox in L2 by reflexivity. lia. }
  exists p. split; [exact E|]. rewrite S1, S2, S3, S4, S5, S6, S7. repeat (split; [reflexivity|]). split; [|repeat (split; [reflexivity|]); exact HM].
  change (Some (n_channels e mod 256) = Some (n_channels e)). f_equal. lia.
Qed.
Example C194_undescribed_example : let b := [0; 0; 0; 0] ++ [1] ++ [20] ++ repeat 0 20 in undescribed b /\
  match mp4_read_all (encs (f_top (ex_file (stsd_of 1 (sbox ($"mp4a") (entry_bytes ex_entry ++ sbox ($"esds") b ++ []) ++ [])) [(43, 1024)]))) (ex_opts Strict) with
  | Ok (_, p) => q_codec p = Some AAC /\ q_type p = None /\ q_rate p = Some 48000 /\ q_channels p = Some 2 | _ => False end.
Proof. split; [apply (another_first 1 [20] (repeat 0 20)); [discriminate|]; exists [], 20; split; [reflexivity|]; split; [vm_compute; discriminate|]; split; [constructor|reflexivity]|]. vm_compute. repeat split. Qed.
