(** * C248 for MPEG: saving an ID3v2 tag does not change what is read about the audio *)
From Coq Require Import Permutation.
From Verif Require Import AacSpec AacModel AacProof3 AacThm MpegThm2 FrameSaveThm MpegThm MpegProof4.
From Verif Require Import Id3v2HeaderProof BaseLemmas Frame23Proof FrameProof2 FrameThm ItemKeyThm Id3v2TagProof2 Id3v2TagProof4 Id3v2TagThm2.
From Verif Require Import Id3v2TagSpec.
From Verif Require Import GenericId3Thm.
From Verif Require MpegModel MpegSpec MpegProof.
Import MpegModel.

Definition same_mpeg (p q : mprops) : Prop := exists overall, q = mkMP (p_version p) (p_layer p) (p_duration p) overall (p_audio p) (p_rate p) (p_channels p) (p_mode p) (p_ext p) (p_copyright p) (p_original p) (p_emphasis p).
(** What comes from the first header *)
Definition of_header (h : mheader) (p : mprops) : Prop :=
  p = mkMP (m_version h) (m_layer h) (p_duration p) (p_overall p) (p_audio p) (m_rate h) (match m_mode h with SingleChannel => 1 | _ => 2 end) (m_mode h) (m_ext h) (m_copyright h) (m_original h) (m_emphasis h).
Lemma first_fields : forall data h start last vbr n p, read_properties data h start last vbr n = Ok p -> of_header h p.
Proof.
  intros data h start last vbr n p H. unfold read_properties in H.
  repeat match type of H with
  | Ok _ = Ok _ => inversion H; subst p; reflexivity
  | (let? x := ?e in _) = _ => destruct e; cbn [bind] in H; try discriminate H
  | (if ?b then _ else _) = _ => destruct b
  | (match ?b with _ => _ end) = _ => destruct b
  end.
Qed.
Lemma same_header : forall h p q, of_header h p -> of_header h q -> p_duration p = p_duration q -> p_audio p = p_audio q -> same_mpeg p q.
Proof. intros h p q P Q D A. exists (p_overall q). rewrite P, Q. cbn. now rewrite D, A. Qed.

(** The audio: marked by a Xing header, or of constant bit rate without anything like a header in the last frame *)
Definition told (m : mfile) (x : MpegSpec.fields * bytes) (l : list (MpegSpec.fields * bytes)) : Prop :=
  (exists name flags frames size, (name = $"Xing" \/ name = $"Info") /\ N.land flags 3 = 3 /\ 0 < frames < 2 ^ 32 /\ 0 < size < 2 ^ 32 /\ MpegThm.carries x (xing name flags frames size)) \/
  (exists init z, x :: l = init ++ [z] /\ MpegThm.plain x (audio_of (mx_frames m) ++ mx_ape m ++ mx_v1 m) /\ MpegThm.quiet z /\ xing_offset (fst x) + 32 <= lenN (audio_of (mx_frames m))).
Lemma read_told : forall inflate o m x l v1t, mfile_ok inflate o m -> mx_frames m = x :: l -> v1_of o (mx_v1 m) v1t -> mo_props o = true -> lenN (file_bytes m) < 2 ^ 59 -> told m x l ->
  exists f, mpeg_read inflate o (file_bytes m) = Ok f /\ of_header (MpegProof.header_of (fst x)) (mf_props f).
Proof.
  intros inflate o m x l v1t OK EF V1 P L TO. assert (R : exists f, mpeg_read inflate o (file_bytes m) = Ok f).
  { destruct TO as [(name & flags & frames & size & N1 & N2 & N3 & N4 & C)|(init & z & EZ & PL & Q & LA)].
    - destruct (C168_xing inflate o m x l v1t name flags frames size) as (f & E & _); auto. { change (2 ^ 59) with 576460752303423488 in L. change (2 ^ 61) with 2305843009213693952. lia. } eauto.
    - destruct (C169_cbr inflate o m x l v1t z init) as (f & E & _); auto. eauto. }
  destruct R as (f & E). exists f. split; auto. destruct (read_main inflate o m x l v1t OK EF V1) as (ape & _ & _ & E2). cbv zeta in E2. rewrite E, P in E2.
  destruct (read_exact 32 _) as [[b r]|]; [|discriminate E2]. destruct (vbr_read b) as [vbr| |]; cbn [bind] in E2; try discriminate E2.
  destruct (read_properties _ _ _ _ _ _) as [p| |] eqn:RP; cbn [bind] in E2; try discriminate E2. injection E2 as ->. cbn [mf_props]. eapply first_fields. exact RP.
Qed.
(** Two files with the same frames and the same tags after them *)
Lemma told_same : forall inflate o m m' x l v1t, mfile_ok inflate o m -> mfile_ok inflate o m' -> mx_frames m = x :: l -> mx_frames m' = x :: l -> mx_ape m' = mx_ape m -> mx_v1 m' = mx_v1 m -> v1_of o (mx_v1 m) v1t -> mo_props o = true ->
  lenN (file_bytes m) < 2 ^ 59 -> lenN (file_bytes m') < 2 ^ 59 -> told m x l ->
  exists f f', mpeg_read inflate o (file_bytes m) = Ok f /\ mpeg_read inflate o (file_bytes m') = Ok f' /\ same_mpeg (mf_props f) (mf_props f').
Proof.
  intros inflate o m m' x l v1t OK OK' EF EF' EA EV V1 P L L' TO.
  assert (V1' : v1_of o (mx_v1 m') v1t) by now rewrite EV.
  assert (TO' : told m' x l). { destruct TO as [TO|(init & z & EZ & PL & Q & LA)]; [left; exact TO|right]. exists init, z. split; [exact EZ|]. split; [rewrite EF', EA, EV, <- EF; exact PL|]. split; [exact Q|]. rewrite EF', <- EF. exact LA. }
  destruct (read_told inflate o m x l v1t OK EF V1 P L TO) as (f & E & H). destruct (read_told inflate o m' x l v1t OK' EF' V1' P L' TO') as (f' & E' & H').
  exists f, f'. split; auto. split; auto. apply same_header with (MpegProof.header_of (fst x)); auto; change (2 ^ 59) with 576460752303423488 in *.
  all: destruct TO as [(name & flags & frames & size & N1 & N2 & N3 & N4 & C)|(init & z & EZ & PL & Q & LA)].
  1, 3: destruct (C168_xing inflate o m x l v1t name flags frames size) as (g & G & _ & D & _ & A & _); auto; [change (2 ^ 61) with 2305843009213693952; lia|];
    destruct (C168_xing inflate o m' x l v1t name flags frames size) as (g' & G' & _ & D' & _ & A' & _); auto; [change (2 ^ 61) with 2305843009213693952; lia|];
    rewrite E in G; rewrite E' in G'; injection G as ->; injection G' as ->; congruence.
  all: destruct (C169_cbr inflate o m x l v1t z init) as (g & G & D & A & _); auto; destruct (C169_cbr inflate o m' x l v1t z init) as (g' & G' & D' & A' & _); auto;
    [now rewrite EA, EV, EF', <- EF|now rewrite EF', <- EF|]; rewrite E in G; rewrite E' in G'; injection G as ->; injection G' as ->; rewrite ?EF, ?EF' in *; congruence.
Qed.

(** A generic tag is saved as ID3v2.4, in front of the audio or over another tag: the properties are those of the audio alone. *)
Theorem C248_mpeg : forall custom order gs fs ps w window inflate o m x l v1t data log,
  (forall l, Permutation (order l) l) -> (forall st, rate custom Id3v2 st < 256) -> id3_fits custom gs fs ps -> w_v23 w = false -> fo_cover (mo_frames o) = true -> mo_props o = true ->
  mfile_ok inflate o m -> mx_zeros m = 0%nat -> mx_tags m = [] -> mx_frames m = x :: l -> v1_of o (mx_v1 m) v1t -> 128 <= lenN (audio_of (mx_frames m)) -> told m x l ->
  holds_audio window (file_bytes m) data ->
  save_id3v2 w window NO_FLAGS (tag_frames order custom (generic gs ps)) data = Ok log -> lenN (apply_log data log) < 2 ^ 32 ->
  exists f f', mpeg_read inflate o (file_bytes m) = Ok f /\ mpeg_read inflate o (apply_log data log) = Ok f' /\ same_mpeg (mf_props f) (mf_props f').
Proof.
  intros custom order gs fs ps w window inflate o m x l v1t data log Or Rb F V C P OK Z TG EF V1 LA TO H S L.
  destruct (saved_front _ _ _ _ _ _ H S) as (tag & E & A). rewrite A in *. assert (LT : lenN tag < 2 ^ 32) by (rewrite lenN_app in L; lia).
  destruct (fits_saved custom order gs fs ps w inflate (mo_frames o) tag Or Rb F V C E LT) as (t & VO & VB & AG & NF).
  set (m' := mkFile 0 [] [t] (mx_frames m) (mx_ape m) (mx_v1 m)).
  assert (FT : mx_foot m = []) by (destruct OK as [_ OF _ _ _ _ _]; rewrite TG in OF; exact OF).
  assert (TM : through m = audio_of (mx_frames m)) by (unfold through, before; rewrite Z, TG; reflexivity).
  assert (TM' : through m' = tag ++ through m) by (rewrite TM; unfold through, before, m'; cbn [mx_zeros mx_foot mx_tags mx_frames repeat front_of flat_map app]; rewrite VB, app_nil_r; reflexivity).
  assert (FB : file_bytes m' = tag ++ file_bytes m) by (unfold file_bytes; rewrite TM', <- app_assoc; reflexivity).
  assert (OK' : mfile_ok inflate o m').
  { destruct OK as [OT OF OS OR OA OV OD]. constructor; auto.
    - cbn [mx_tags m']. constructor; auto.
    - cbn [mx_tags m' mx_foot foot_ok]. rewrite NF. split; auto.
    - rewrite TM'. cbn [m' mx_ape]. apply old_kept; auto. rewrite TM. lia.
    - rewrite FB. cbn [m' mx_v1]. apply end_kept; auto. intros _. unfold file_bytes. rewrite lenN_app, TM. lia. }
  rewrite <- FB in *. change (2 ^ 32) with 4294967296 in L. destruct (told_same inflate o m m' x l v1t) as (f & f' & R); eauto.
  - rewrite FB, lenN_app in L. change (2 ^ 59) with 576460752303423488. lia.
  - change (2 ^ 59) with 576460752303423488. lia.
Qed.
Print Assumptions C248_mpeg.

(** AAC: the header of the tag is counted as audio, ten bytes of it, so that the duration may grow. All else is the same. *)
Definition same_aac (p q : aac_props) : Prop :=
  q = mkAP (ap_version p) (ap_type p) (ap_duration q) (ap_overall p) (ap_audio p) (ap_rate p) (ap_channels p) (ap_mask p) (ap_copyright p) (ap_original p) /\
  ap_duration p <= ap_duration q <= ap_duration p + 80 / ap_audio p + 1.
Lemma same_aac_ten : forall h b n, n + 10 < 2 ^ 32 -> exists p q, aac_properties h b n = Ok p /\ aac_properties h b (n + 10) = Ok q /\ same_aac p q.
Proof.
  intros h b n L. unfold aac_properties. change U64_MAX with 18446744073709551615. change (2 ^ 32) with 4294967296 in L. destruct (N.ltb_spec 0 b) as [B|B].
  - replace (18446744073709551615 <? n * 8) with false by (symmetry; apply N.ltb_ge; lia). replace (18446744073709551615 <? (n + 10) * 8) with false by (symmetry; apply N.ltb_ge; lia).
    eexists _, _. split; [reflexivity|]. split; [reflexivity|]. split; [reflexivity|]. cbn [ap_duration ap_audio].
    replace ((n + 10) * 8) with (n * 8 + 80) by lia. pose proof (N.div_mod (n * 8 + 80) b ltac:(lia)). pose proof (N.mod_lt (n * 8 + 80) b ltac:(lia)). pose proof (N.div_mod (n * 8) b ltac:(lia)).
    pose proof (N.mod_lt (n * 8) b ltac:(lia)). pose proof (N.div_mod 80 b ltac:(lia)). pose proof (N.mod_lt 80 b ltac:(lia)). split; [apply N.div_le_mono; lia|]. clear L.
    set (u := (n * 8 + 80) / b) in *. set (v := n * 8 / b) in *. set (w := 80 / b) in *. assert (b * u < b * (v + w + 2)) by lia. apply N.mul_lt_mono_pos_l in H5; lia.
  - eexists _, _. split; [reflexivity|]. split; [reflexivity|]. split; [reflexivity|]. cbn [ap_duration ap_audio]. lia.
Qed.
Theorem C248_aac_partial : forall custom order gs fs ps w window inflate rounds o m x l z v1t data log,
  (forall l, Permutation (order l) l) -> (forall st, rate custom Id3v2 st < 256) -> id3_fits custom gs fs ps -> w_v23 w = false -> fo_cover (mo_frames o) = true -> mo_props o = true ->
  afile_ok inflate o m -> ax_zeros m = 0%nat -> ax_tags m = [] -> ax_frames m = x :: l ++ [z] -> v1_of o (ax_v1 m) v1t -> 128 <= lenN (afile_bytes m) ->
  (length l < rounds)%nat -> 1024 * 1024 + 8 * 1024 <= 8 * alength x * arate (fst x) -> holds_audio window (afile_bytes m) data ->
  save_id3v2 w window NO_FLAGS (tag_frames order custom (generic gs ps)) data = Ok log -> lenN (apply_log data log) < 2 ^ 32 ->
  exists f f' p q, aac_read inflate rounds o (afile_bytes m) = Ok f /\ aac_read inflate rounds o (apply_log data log) = Ok f' /\ af_props f = Some p /\ af_props f' = Some q /\ same_aac p q.
Proof.
  intros custom order gs fs ps w window inflate rounds o m x l z v1t data log Or Rb F V C P OK Z TG EF V1 LA RD B H S L.
  destruct (saved_front _ _ _ _ _ _ H S) as (tag & E & A). rewrite A in *. assert (LT : lenN tag < 2 ^ 32) by (rewrite lenN_app in L; lia).
  destruct (fits_saved custom order gs fs ps w inflate (mo_frames o) tag Or Rb F V C E LT) as (t & VO & VB & AG & NF).
  set (m' := mkAFile 0 [] [t] (ax_junk m) (ax_frames m) (ax_post m) (ax_v1 m)).
  assert (FB : afile_bytes m' = tag ++ afile_bytes m).
  { unfold afile_bytes, ax_before, m'. rewrite Z, TG. cbn [ax_zeros ax_foot ax_tags ax_junk ax_frames ax_post ax_v1 repeat front_of flat_map app]. rewrite VB, app_nil_r. reflexivity. }
  assert (OK' : afile_ok inflate o m').
  { destruct OK as [OT OF OJ OS OE OV OD]. constructor; auto.
    - cbn [ax_tags m']. constructor; auto.
    - cbn [ax_tags m' ax_foot foot_ok]. rewrite NF. split; auto.
    - destruct OJ as (J1 & J2 & J3 & J4). repeat (split; auto).
    - rewrite FB. cbn [m' ax_v1]. apply end_kept; auto. }
  assert (L0 : lenN (afile_bytes m) < 2 ^ 32) by (rewrite lenN_app in L; lia). rewrite <- FB in *.
  rewrite (aac_main inflate rounds o m x l z v1t OK EF V1 L0 RD), (aac_main inflate rounds o m' x l z v1t OK' EF V1 L RD), P.
  assert (CR : code_rate x <> 0). { unfold code_rate. intros X. apply N.div_small_iff in X; [|discriminate]. pose proof (N.div_mod (alength x * arate (fst x)) 1024 ltac:(discriminate)). pose proof (N.mod_lt (alength x * arate (fst x)) 1024 ltac:(discriminate)). lia. }
  destruct (N.eqb_spec (code_rate x) 0); [contradiction|].
  assert (ST : ax_stream m' = ax_stream m + 10). { unfold ax_stream, m'. rewrite Z, TG. cbn [ax_zeros ax_tags ax_junk ax_frames ax_post]. change (lenN [t]) with 1. change (lenN (@nil vtag)) with 0. lia. }
  assert (SL : ax_stream m + 10 < 2 ^ 32). { rewrite FB, lenN_app in L. assert (10 <= lenN tag). { rewrite <- VB, vtag_len. lia. } unfold afile_bytes, ax_before in L. rewrite Z, TG in L. cbn [repeat front_of] in L. rewrite !lenN_app in L. unfold ax_stream. rewrite Z, TG. change (lenN (@nil vtag)) with 0. lia. }
  rewrite ST. match goal with |- context [aac_properties ?h ?b (ax_stream m)] => destruct (same_aac_ten h b (ax_stream m) SL) as (p & q & -> & -> & SA) end. cbn [bind].
  eexists _, _, p, q. split; [reflexivity|]. split; [reflexivity|]. auto.
Qed.
Print Assumptions C248_aac_partial.

(** ** Examples *)
(** Six frames are told by their bit rate; a frame with a Xing header by that. *)
Example C248_told : told mpeg_ex frame0 [frame0; frame0; frame0; frame0; frame0].
Proof.
  right. exists [frame0; frame0; frame0; frame0; frame0], frame0. split; [reflexivity|]. split; [|split].
  - repeat constructor; intros (p & q & E & _); assert (X : forall c, In c [88; 73; 86] -> ~ In c (file_bytes mpeg_ex)) by
      (intros c [<-|[<-|[<-|[]]]] I; match goal with I : In ?c _ |- _ => assert (Y : existsb (N.eqb c) (file_bytes mpeg_ex) = true) by (apply existsb_exists; exists c; split; [exact I|reflexivity]) end; vm_compute in Y; discriminate Y).
    all: change (audio_of (mx_frames mpeg_ex) ++ mx_ape mpeg_ex ++ mx_v1 mpeg_ex) with (file_bytes mpeg_ex) in E.
    + apply (X 88); [now left|]. rewrite E. apply in_or_app. right. now left.
    + apply (X 73); [right; now left|]. rewrite E. apply in_or_app. right. now left.
    + apply (X 86); [right; right; now left|]. rewrite E. apply in_or_app. right. now left.
  - split; [repeat constructor|]. intros p f q E VF. destruct p as [|a p]; auto. exfalso.
    destruct (MpegProof2.word_bytes f VF) as (b & c & d & W & _). rewrite W in E. change (MpegSpec.frame_bytes frame0) with (255 :: tl (MpegSpec.frame_bytes frame0)) in E. apply (f_equal (@tl N)) in E. change (tl (MpegSpec.frame_bytes frame0) = p ++ [255; b; c; d] ++ q) in E.
    assert (Y : existsb (N.eqb 255) (tl (MpegSpec.frame_bytes frame0)) = true) by (apply existsb_exists; exists 255; split; [rewrite E; apply in_or_app; right; now left|reflexivity]). vm_compute in Y. discriminate Y.
  - vm_compute. discriminate.
Qed.
(** The audio of six frames lasts 144 ms, with a tag or not. *)
Definition opts_sound : mopts := mkMO (mkFO BestAttempt true true) true true 1024.
Example C248_mpeg_ex : exists d f f', saved_to (file_bytes mpeg_ex) (generic items_ex [cover_ex]) = Some d /\ mpeg_read MpegThm.no_inflate opts_sound (file_bytes mpeg_ex) = Ok f /\ mpeg_read MpegThm.no_inflate opts_sound d = Ok f' /\
  p_duration (mf_props f) = 144 /\ p_duration (mf_props f') = 144 /\ p_audio (mf_props f) = 8 /\ p_audio (mf_props f') = 8 /\ p_overall (mf_props f) < p_overall (mf_props f').
Proof. eexists _, _, _. split; [vm_compute; reflexivity|]. split; [vm_compute; reflexivity|]. split; [vm_compute; reflexivity|]. repeat split. Qed.
(** Three frames of AAC last a millisecond longer with a tag. *)
Theorem C248_aac_refuted : exists d f f' p q, saved_to audio3 (generic items_ex [cover_ex]) = Some d /\ aac_read MpegThm.no_inflate 9 opts_sound audio3 = Ok f /\ aac_read MpegThm.no_inflate 9 opts_sound d = Ok f' /\
  af_props f = Some p /\ af_props f' = Some q /\ ap_duration p = 71 /\ ap_duration q = 72 /\ ap_audio p = ap_audio q.
Proof. eexists _, _, _, _, _. split; [vm_compute; reflexivity|]. split; [vm_compute; reflexivity|]. split; [vm_compute; reflexivity|]. repeat split. Qed.
