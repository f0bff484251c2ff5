(** Audio properties of MP4 files: C191 to C197. *)
From Verif Require Import Base BaseLemmas Str StrLemmas Mode PictureModel FileModel MathModel MathThm FlacModel FlacThm MpegProof.
From Verif Require Import Mp4Model Mp4WriteModel Mp4Spec Mp4Proof Mp4Proof3 Mp4Proof4 Mp4Proof5 Mp4Proof6 Mp4Proof7 Mp4Proof8 Mp4PropsModel Mp4PropsSpec Mp4PropsProof Mp4PropsProof2 Mp4PropsProof3 Mp4PropsProof4 Mp4PropsProof5 Mp4PropsProof6.

(** ** C191. The track is the first one that sounds, its duration is given in milliseconds, rounded. *)
Theorem C191_duration : forall o f il p, afile_ok o f -> mo_props o = true -> h_duration (f_media f) < 2 ^ 54 -> lenN (encs (f_top f)) < 2 ^ 61 ->
  mp4_read_all (encs (f_top f)) o = Ok (il, p) ->
  if h_scale (f_media f) =? 0 then q_duration p = 0
  else 2 * q_duration p * h_scale (f_media f) <= 2000 * h_duration (f_media f) + h_scale (f_media f) < 2 * (q_duration p + 1) * h_scale (f_media f).
Proof.
  intros o f il p HA HP HD HL HR. assert (RD : readable o f il).
  { unfold mp4_read_all in HR. destruct (mp4_read _ o) as [[[brand tr] il']|e|] eqn:E; cbn [bind] in HR; try discriminate. rewrite HP in HR.
    destruct (mp4_properties _ _ _); cbn [bind] in HR; try discriminate. injection HR as -> _. exists brand, tr. exact E. }
  destruct (read_all_eq o f il HA HP HD RD) as (brand & d & HM & E). rewrite E in HR. clear E. unfold rest_of in HR.
  destruct (read_stsd (f_stsd f) (mo_mode o) (set_duration d props_default)) as [p1|e|] eqn:ES; cbn [bind] in HR; try discriminate. apply stsd_duration in ES. cbn [set_duration q_duration] in ES.
  assert (DP : q_duration p = d).
  { destruct (h_duration (f_media f) =? 0). { cbn [bind] in HR. injection HR as <-. exact ES. }
    destruct (mdat_size (f_top f)) as [n|] eqn:EM.
    - destruct (bit_rates_total (lenN (encs (f_top f))) n (h_scale (f_media f)) (h_duration (f_media f)) (Some (map snd (f_stts f))) p1 HL (mdat_le _ _ EM)) as (p' & EB & SS).
      rewrite EB in HR. cbn [bind] in HR. injection HR as <-. destruct SS as (_ & _ & SS & _). cbn [set_ftyp q_duration]. now rewrite SS.
    - destruct (is_strict (mo_mode o)); cbn [bind] in HR; [discriminate|]. injection HR as <-. exact ES. }
  rewrite DP. destruct HM as [[-> ->]|[NZ HM]]; [reflexivity|]. replace (h_scale (f_media f) =? 0) with false by lia. exact HM.
Qed.
(** Without tags, with the other tracks of the usual form *)
Theorem C191_readable : forall o f, afile_ok o f -> mo_props o = true -> (mo_tags o = false \/ none_named ($"udta") (f_k2 f)) -> Forall quiet_trak (f_trak f :: f_k2 f) -> readable o f None.
Proof. exact readable_quiet. Qed.

(** ** C192. MPEG-4 audio: object type, sample rate and channels of the configuration *)
Definition plain_type (t : N) : Prop := 1 <= t <= 30 /\ t <> 10 /\ t <> 11 /\ t <> 18.
Definition codec_is (b : N) (k : codec) : Prop := (In b [0x40; 0x66; 0x67; 0x68] /\ k = AAC) \/ (In b [0x69; 0x6B] /\ k = MP3).
Lemma plain_known : forall t, plain_type t -> known_type t = true.
Proof.
  intros t (R & N1 & N2 & N3). assert (forallb (fun t => (t =? 0) || (t =? 10) || (t =? 11) || (t =? 18) || known_type t) (map N.of_nat (seq 0 31)) = true) as F by reflexivity.
  rewrite forallb_forall in F. specialize (F t). rewrite in_map_iff in F. assert (X : ((((t =? 0) || (t =? 10)) || (t =? 11)) || (t =? 18)) || known_type t = true).
  { apply F. exists (N.to_nat t). rewrite in_seq. split; lia. }
  replace (t =? 0) with false in X by lia. replace (t =? 10) with false in X by lia. replace (t =? 11) with false in X by lia. replace (t =? 18) with false in X by lia. exact X.
Qed.
Lemma codec_is_of : forall b k, codec_is b k -> codec_of b = Some k.
Proof. intros b k [[H ->]|[H ->]]; cbn [In] in H; repeat (destruct H as [<-|H]; [reflexivity|]); contradiction. Qed.
Definition mp4a_stsd (count : N) (e : entry) (x : stream) (config more rest : bytes) : bytes :=
  stsd_of count (sbox ($"mp4a") (entry_bytes e ++ sbox ($"esds") (esds_bytes x config) ++ more) ++ rest).
Lemma stsd_len : forall count l, lenN (stsd_of count l) = 8 + lenN l.
Proof. intros. unfold stsd_of. rewrite !lenN_app, be_enc_len. change (lenN [0; 0; 0; 0]) with 4. lia. Qed.
Lemma rate_index : forall c, c_index c <= 12 -> nth (N.to_nat (c_index c)) SAMPLE_RATES 0 = rate_of c.
Proof.
  intros c H. unfold rate_of. replace (c_index c =? 15) with false by lia. change SAMPLE_RATES with (RATES ++ [0; 0]). apply app_nth1. cbn [RATES length]. lia.
Qed.
Lemma mp4a_inner : forall count f e inner more rest, lenN (stsd_of count (sbox f (entry_bytes e ++ inner ++ more) ++ rest)) + 8 < 2 ^ 32 -> lenN f = 4 -> entry_ok e ->
  36 + lenN (inner ++ more) < 2 ^ 32 /\ lenN inner < 2 ^ 32.
Proof.
  intros count f e inner more rest H HF (E1 & E2 & _ & E4 & _). rewrite stsd_len, lenN_app, lenN_sbox in H by exact HF. unfold entry_bytes in H. rewrite !lenN_app, !be_enc_len, E1, E2, E4 in H. rewrite lenN_app. lia.
Qed.
Theorem C192_mp4a : forall o f il count e x config more rest c tail k, afile_ok o f -> complete o f -> readable o f il ->
  f_stsd f = mp4a_stsd count e x config more rest -> 0 < count < 2 ^ 32 -> entry_ok e -> stream_ok x -> aconfig_ok c -> config_bytes c tail config ->
  plain_type (c_type c) -> c_index c <= 12 -> c_conf c <= 6 -> n_channels e < 256 -> codec_is (x_codec x) k ->
  exists p, mp4_read_all (encs (f_top f)) o = Ok (il, p) /\ q_codec p = Some k /\ q_type p = Some (c_type c) /\ q_rate p = Some (rate_of c) /\
    q_channels p = Some (match channels_of (c_conf c) with Some n => n | None => n_channels e end) /\ q_depth p = None /\ q_drm p = false /\ millis (f_media f) (q_duration p).
Proof.
  intros o f il count e x config more rest c tail k HA HC HR ES HN HE HX HCO HCB HT HI HF HCH HK. pose proof (stsd_small o f HA) as SM. rewrite ES in SM. unfold mp4a_stsd in *.
  destruct (mp4a_inner _ _ _ _ _ _ SM eq_refl HE) as [L1 L2].
  destruct (read_all_sound o f il (fun p p' => p' = mp4a_props x c (entry_props e p)) HA HC HR) as (p & p1 & d & E & (S1 & S2 & S3 & S4 & S5 & S6 & S7) & -> & HM).
  { intros p. eexists. split; [|reflexivity]. rewrite ES.
    destruct (stsd_first count ($"mp4a") e (sbox ($"esds") (esds_bytes x config) ++ more) rest (mo_mode o) p HN) as [EQ HD]; [idok|discriminate|exact L1|exact HE|]. rewrite EQ. unfold by_kind. rewrite list_eqb_refl.
    change (8 + 36) with 44. rewrite <- app_assoc in HD. apply (mp4a_read _ _ _ x config (more ++ rest) c tail); auto.
    - rewrite lenN_sbox in L2 by reflexivity. lia.
    - destruct HT; lia.
    - now apply plain_known.
    - lia. }
  assert (EC : codec_of (x_codec x) = Some k) by now apply codec_is_of.
  exists p. split; [exact E|].
  assert (G : forall A (get : mp4_props -> A), (forall v q, get (set_audio v q) = get q) -> get (mp4a_props x c (entry_props e (set_duration d props_default))) = get (config_props c (set_codec (codec_of (x_codec x)) (set_codec (Some AAC) (entry_props e (set_duration d props_default)))))).
  { intros A get GA. unfold mp4a_props. destruct (_ || _); [apply GA|reflexivity]. }
  rewrite S1, S2, S3, S4, S5, S6, S7. rewrite !G by reflexivity. rewrite EC. unfold config_props.
  assert (CH : q_channels (if 0 <? c_conf c then set_channels (Some (c_conf c)) (set_rate (Some (nth (N.to_nat (c_index c)) SAMPLE_RATES 0)) (set_type (Some (c_type c)) (set_codec (Some k) (set_codec (Some AAC) (entry_props e (set_duration d props_default))))))
     else set_rate (Some (nth (N.to_nat (c_index c)) SAMPLE_RATES 0)) (set_type (Some (c_type c)) (set_codec (Some k) (set_codec (Some AAC) (entry_props e (set_duration d props_default))))))
     = Some (match channels_of (c_conf c) with Some n => n | None => n_channels e end)).
  { unfold channels_of. destruct (N.ltb_spec 0 (c_conf c)) as [P|Z].
    - replace (1 <=? c_conf c) with true by lia. replace (c_conf c <=? 6) with true by lia. reflexivity.
    - replace (c_conf c) with 0 by lia. change (Some (n_channels e mod 256) = Some (n_channels e)). f_equal. lia. }
  rewrite CH, (rate_index c HI). destruct (0 <? c_conf c); repeat (split; [reflexivity|]); exact HM.
Qed.
(** Types from 32 to 39, which are coded in two parts: type and rate; the channels only if the configuration leaves them to the entry *)
Theorem C192_extended_partial : forall o f il count e x config more rest c tail k, afile_ok o f -> complete o f -> readable o f il ->
  f_stsd f = mp4a_stsd count e x config more rest -> 0 < count < 2 ^ 32 -> entry_ok e -> stream_ok x -> aconfig_ok c -> config_bytes c tail config ->
  32 <= c_type c < 40 -> c_type c <> 36 -> c_index c <= 12 -> n_channels e < 256 -> codec_is (x_codec x) k ->
  exists p, mp4_read_all (encs (f_top f)) o = Ok (il, p) /\ q_codec p = Some k /\ q_type p = Some (c_type c) /\ q_rate p = Some (rate_of c) /\ (c_conf c = 0 -> q_channels p = Some (n_channels e)).
Proof.
  intros o f il count e x config more rest c tail k HA HC HR ES HN HE HX HCO HCB HT HT' HI HCH HK. pose proof (stsd_small o f HA) as SM. rewrite ES in SM. unfold mp4a_stsd in *.
  destruct (mp4a_inner _ _ _ _ _ _ SM eq_refl HE) as [L1 L2]. assert (EC : codec_of (x_codec x) = Some k) by now apply codec_is_of.
  destruct (read_all_sound o f il (fun p p' => q_codec p' = Some k /\ q_type p' = Some (c_type c) /\ q_rate p' = Some (rate_of c) /\ (c_conf c = 0 -> q_channels p' = Some (n_channels e))) HA HC HR)
    as (p & p1 & d & E & (S1 & S2 & S3 & S4 & S5 & S6 & S7) & H & HM).
  { intros p. rewrite ES.
    destruct (stsd_first count ($"mp4a") e (sbox ($"esds") (esds_bytes x config) ++ more) rest (mo_mode o) p HN) as [EQ HD]; [idok|discriminate|exact L1|exact HE|]. rewrite EQ. unfold by_kind. rewrite list_eqb_refl.
    change (8 + 36) with 44. rewrite <- app_assoc in HD. destruct (mp4a_step _ (mo_mode o) _ x config (more ++ rest) (entry_props e p) HD) as (q' & rest' & HQ & ->); [rewrite lenN_sbox in L2 by reflexivity; lia|exact HX|].
    destruct (config_read_ext _ _ c tail config rest' (set_codec (codec_of (x_codec x)) (set_codec (Some AAC) (entry_props e p))) HQ HCO HT HT') as (p' & -> & P1 & P2 & P3 & P4 & P5 & P6); [lia|exact HCB|]. cbn [bind].
    eexists. split; [reflexivity|]. rewrite EC in P3. rewrite (rate_index c HI) in P2.
    destruct (_ || _); (split; [exact P3|split; [exact P1|split; [exact P2|]]]); intros Z; specialize (P6 Z); cbn [set_audio q_channels]; rewrite P6; change (Some (n_channels e mod 256) = Some (n_channels e)); f_equal; lia. }
  exists p. split; [exact E|]. rewrite S1, S2, S4, S6. exact H.
Qed.

(** ** C193. ALAC and FLAC *)
Theorem C193_alac : forall o f il e a, afile_ok o f -> complete o f -> readable o f il ->
  f_stsd f = stsd_of 1 (sbox ($"alac") (entry_bytes e ++ sbox ($"alac") (alac_bytes a))) -> entry_ok e -> alac_ok a ->
  exists p, mp4_read_all (encs (f_top f)) o = Ok (il, p) /\ q_codec p = Some ALAC /\ q_type p = None /\ q_rate p = Some (l_rate a) /\ q_channels p = Some (l_channels a) /\ q_depth p = Some (l_depth a) /\ q_drm p = false /\
    millis (f_media f) (q_duration p).
Proof.
  intros o f il e a HA HC HR ES HE HL.
  assert (LA : lenN (alac_bytes a) = 28) by (destruct HL as (L1 & L2 & _ & L4 & _ & L6 & _); unfold alac_bytes; rewrite !lenN_app, !be_enc_len, L1, L2, L4, L6; reflexivity).
  assert (LEB : lenN (entry_bytes e) = 28) by (destruct HE as (E1 & E2 & _ & E4 & _); unfold entry_bytes; rewrite !lenN_app, !be_enc_len, E1, E2, E4; reflexivity).
  destruct (read_all_sound o f il (fun p p' => p' = alac_props a (entry_props e p)) HA HC HR) as (p & p1 & d & E & (S1 & S2 & S3 & S4 & S5 & S6 & S7) & -> & HM).
  { intros p. eexists. split; [|reflexivity]. rewrite ES.
    destruct (stsd_first 1 ($"alac") e (sbox ($"alac") (alac_bytes a)) [] (mo_mode o) p) as [EQ HD]; [lia|idok|discriminate|rewrite lenN_sbox by reflexivity; lia|exact HE|].
    cbv zeta in EQ, HD. rewrite !app_nil_r in EQ, HD. rewrite EQ. unfold by_kind.
    change (list_eqb ($"alac") ($"mp4a")) with false. rewrite list_eqb_refl. cbn iota. change (8 + 36) with 44. apply (alac_read _ _ _ a []); [|exact HD|exact HL].
    rewrite stsd_len, lenN_sbox by reflexivity. rewrite lenN_app, lenN_sbox by reflexivity. rewrite LA, LEB. reflexivity. }
  exists p. split; [exact E|]. rewrite S1, S2, S3, S4, S5, S6, S7. repeat (split; [reflexivity|]). exact HM.
Qed.
Theorem C193_flac : forall o f il count e i last blocks more rest, afile_ok o f -> complete o f -> readable o f il ->
  f_stsd f = stsd_of count (sbox ($"fLaC") (entry_bytes e ++ sbox ($"dfLa") (dfla_bytes i last blocks) ++ more) ++ rest) -> 0 < count < 2 ^ 32 -> entry_ok e -> info_ok i ->
  exists p, mp4_read_all (encs (f_top f)) o = Ok (il, p) /\ q_codec p = Some FLAC /\ q_type p = None /\ q_rate p = Some (i_rate i) /\ q_channels p = Some (i_channels i) /\ q_depth p = Some (i_depth i) /\ q_drm p = false /\
    millis (f_media f) (q_duration p).
Proof.
  intros o f il count e i last blocks more rest HA HC HR ES HN HE HI. pose proof (stsd_small o f HA) as SM. rewrite ES in SM. destruct (mp4a_inner _ _ _ _ _ _ SM eq_refl HE) as [L1 L2].
  destruct (read_all_sound o f il (fun p p' => p' = dfla_props i (entry_props e p)) HA HC HR) as (p & p1 & d & E & (S1 & S2 & S3 & S4 & S5 & S6 & S7) & -> & HM).
  { intros p. eexists. split; [|reflexivity]. rewrite ES.
    destruct (stsd_first count ($"fLaC") e (sbox ($"dfLa") (dfla_bytes i last blocks) ++ more) rest (mo_mode o) p HN) as [EQ HD]; [idok|discriminate|exact L1|exact HE|]. rewrite EQ. unfold by_kind.
    change (list_eqb ($"fLaC") ($"mp4a")) with false. change (list_eqb ($"fLaC") ($"alac")) with false. rewrite list_eqb_refl. cbn iota. change (8 + 36) with 44. rewrite <- app_assoc in HD.
    apply (dfla_read _ _ _ i last blocks (more ++ rest)); [exact HD| |exact HI]. rewrite lenN_sbox in L2 by reflexivity. lia. }
  exists p. split; [exact E|]. rewrite S1, S2, S3, S4, S5, S6, S7. repeat (split; [reflexivity|]). exact HM.
Qed.

(** ** C194. One entry of another kind: the channels and the rate of the entry; encrypted if it is drms *)
Theorem C194_other : forall o f il k e inner, afile_ok o f -> complete o f -> readable o f il ->
  f_stsd f = stsd_of 1 (sbox k (entry_bytes e ++ inner)) -> box_id k -> ~ In k [$"----"; $"mp4a"; $"alac"; $"fLaC"] -> entry_ok e -> n_channels e < 256 ->
  exists p, mp4_read_all (encs (f_top f)) o = Ok (il, p) /\ q_codec p = None /\ q_type p = None /\ q_rate p = Some (n_rate e / 2 ^ 16) /\ q_channels p = Some (n_channels e) /\ q_depth p = None /\
    (q_drm p = true <-> k = $"drms") /\ millis (f_media f) (q_duration p).
Proof.
  intros o f il k e inner HA HC HR ES HK NK HE HCH. pose proof (stsd_small o f HA) as SM. rewrite ES in SM. cbn [In] in NK.
  destruct (mp4a_inner 1 k e inner [] []) as [L1 _]; [now rewrite !app_nil_r|apply HK|exact HE|]. rewrite app_nil_r in L1.
  destruct (read_all_sound o f il (fun p p' => p' = if list_eqb k ($"drms") then set_drm true (entry_props e p) else entry_props e p) HA HC HR) as (p & p1 & d & E & (S1 & S2 & S3 & S4 & S5 & S6 & S7) & -> & HM).
  { intros p. eexists. split; [|reflexivity]. rewrite ES.
    destruct (stsd_first 1 k e inner [] (mo_mode o) p) as [EQ HD]; [lia|exact HK|intuition congruence|exact L1|exact HE|]. cbv zeta in EQ. rewrite !app_nil_r in EQ. rewrite EQ. unfold by_kind.
    rewrite !(proj2 (list_eqb_neq k _)) by intuition congruence.
    remember (length (stsd_of 1 (sbox k (entry_bytes e ++ inner)))) as n. change (1 - 1) with 0. destruct n; reflexivity. }
  exists p. split; [exact E|]. rewrite S1, S2, S3, S4, S5, S6, S7.
  assert (CM : Some (n_channels e mod 256) = Some (n_channels e)) by (f_equal; lia).
  destruct (list_eqb k ($"drms")) eqn:EK.
  - apply list_eqb_eq in EK. repeat (split; [first [reflexivity|exact CM|split; auto]|]). exact HM.
  - repeat (split; [first [reflexivity|exact CM|split; [discriminate|intros ->; rewrite list_eqb_refl in EK; discriminate]]|]). exact HM.
Qed.

(** ** C195. Bit rates, in bits per millisecond: of the file; of the media data over the duration of the track *)
Lemma rates_eq : forall o f il p n, afile_ok o f -> mo_props o = true -> h_duration (f_media f) < 2 ^ 54 -> lenN (encs (f_top f)) < 2 ^ 61 ->
  mp4_read_all (encs (f_top f)) o = Ok (il, p) -> mdat_size (f_top f) = Some n -> h_duration (f_media f) <> 0 ->
  exists brand d p1 p2, read_stsd (f_stsd f) (mo_mode o) (set_duration d props_default) = Ok p1 /\ q_duration p1 = d /\
    bit_rates (lenN (encs (f_top f))) n (h_scale (f_media f)) (h_duration (f_media f)) (Some (map snd (f_stts f))) p1 = Ok p2 /\ p = set_ftyp brand p2 /\ q_duration p = d.
Proof.
  intros o f il p n HA HP HD HL HR EM NZ. assert (RD : readable o f il).
  { unfold mp4_read_all in HR. destruct (mp4_read _ o) as [[[brand tr] il']|e|] eqn:E; cbn [bind] in HR; try discriminate. rewrite HP in HR.
    destruct (mp4_properties _ _ _); cbn [bind] in HR; try discriminate. injection HR as -> _. exists brand, tr. exact E. }
  destruct (read_all_eq o f il HA HP HD RD) as (brand & d & HM & E). rewrite E in HR. clear E. unfold rest_of in HR.
  destruct (read_stsd (f_stsd f) (mo_mode o) (set_duration d props_default)) as [p1|e|] eqn:ES; cbn [bind] in HR; try discriminate. pose proof (stsd_duration _ _ _ _ ES) as DU.
  replace (h_duration (f_media f) =? 0) with false in HR by lia. rewrite EM in HR.
  destruct (bit_rates_total (lenN (encs (f_top f))) n (h_scale (f_media f)) (h_duration (f_media f)) (Some (map snd (f_stts f))) p1 HL (mdat_le _ _ EM)) as (p2 & EB & (_ & _ & SS & _)).
  rewrite EB in HR. cbn [bind] in HR. injection HR as <-. exists brand, d, p1, p2. cbn [set_ftyp q_duration]. rewrite SS. auto 10.
Qed.
Theorem C195_overall : forall o f il p n, afile_ok o f -> mo_props o = true -> h_duration (f_media f) < 2 ^ 54 -> lenN (encs (f_top f)) < 2 ^ 61 ->
  mp4_read_all (encs (f_top f)) o = Ok (il, p) -> mdat_size (f_top f) = Some n -> h_duration (f_media f) <> 0 -> q_duration p <> 0 ->
  lenN (encs (f_top f)) * 8 / q_duration p < 2 ^ 32 -> q_overall p = Some (lenN (encs (f_top f)) * 8 / q_duration p).
Proof.
  intros o f il p n HA HP HD HL HR EM NZ ND HS. destruct (rates_eq o f il p n HA HP HD HL HR EM NZ) as (brand & d & p1 & p2 & _ & D1 & EB & -> & D2). cbn [set_ftyp q_duration q_overall] in *.
  rewrite D2 in *. unfold bit_rates in EB. match type of EB with context [q_duration ?z =? 0] => set (q := z) in EB end.
  assert (DQ : q_duration q = d) by (unfold q; destruct (map snd (f_stts f)) as [|[|[| |]] [|? ?]]; exact D1). rewrite DQ in EB. replace (d =? 0) with false in EB by lia.
  destruct (U64_MAX <? _) in EB; [discriminate|]. rewrite N.mod_small in EB by exact HS.
  destruct (q_audio _) as [[|?]|] in EB; [destruct (U64_MAX <? n * 8) in EB; [discriminate|]| |destruct (U64_MAX <? n * 8) in EB; [discriminate|]]; injection EB as <-; reflexivity.
Qed.
Theorem C195_audio : forall o f il p n, afile_ok o f -> mo_props o = true -> h_duration (f_media f) < 2 ^ 54 -> lenN (encs (f_top f)) < 2 ^ 61 ->
  mp4_read_all (encs (f_top f)) o = Ok (il, p) -> mdat_size (f_top f) = Some n -> h_duration (f_media f) <> 0 -> q_duration p <> 0 ->
  map snd (f_stts f) <> [1] -> n * 8 * h_scale (f_media f) / h_duration (f_media f) < 2 ^ 32 -> 1000 * h_duration (f_media f) <= n * 8 * h_scale (f_media f) ->
  q_audio p = Some (n * 8 * h_scale (f_media f) / (1000 * h_duration (f_media f))).
Proof.
  intros o f il p n HA HP HD HL HR EM NZ ND HST HS HK. destruct (rates_eq o f il p n HA HP HD HL HR EM NZ) as (brand & d & p1 & p2 & _ & D1 & EB & -> & D2). cbn [set_ftyp q_duration q_audio] in *.
  rewrite D2 in *. unfold bit_rates in EB. set (X := n * 8 * h_scale (f_media f)) in *. set (Y := h_duration (f_media f)) in *.
  match type of EB with context [q_duration ?z =? 0] => set (q := z) in EB end. assert (EQ : q = set_audio (Some (X / (1000 * Y))) p1).
  { unfold q. rewrite N.mod_small by exact HS. rewrite N.div_div by lia. rewrite (N.mul_comm Y). destruct (map snd (f_stts f)) as [|[|[| |]] [|? ?]]; try reflexivity. congruence. }
  rewrite EQ in EB. cbn [set_audio q_duration] in EB. rewrite D1 in EB. replace (d =? 0) with false in EB by lia. destruct (U64_MAX <? _) in EB; [discriminate|]. cbn [set_overall q_audio] in EB.
  assert (P : 1 <= X / (1000 * Y)) by (apply N.div_le_lower_bound; lia). destruct (X / (1000 * Y)) as [|k] eqn:E; [lia|]. injection EB as <-. reflexivity.
Qed.
(** When every sample is said to last one unit: what the elementary stream says, if it says something *)
Theorem C195_average : forall o f il p n count e x config more rest c tail, afile_ok o f -> mo_props o = true -> h_duration (f_media f) < 2 ^ 54 -> lenN (encs (f_top f)) < 2 ^ 61 ->
  mp4_read_all (encs (f_top f)) o = Ok (il, p) -> mdat_size (f_top f) = Some n -> h_duration (f_media f) <> 0 -> q_duration p <> 0 ->
  map snd (f_stts f) = [1] -> f_stsd f = mp4a_stsd count e x config more rest -> 0 < count < 2 ^ 32 -> entry_ok e -> stream_ok x -> aconfig_ok c -> config_bytes c tail config ->
  plain_type (c_type c) -> c_index c <= 12 -> 1000 <= x_average x ->
  q_audio p = Some (x_average x / 1000).
Proof.
  intros o f il p n count e x config more rest c tail HA HP HD HL HR EM NZ ND HST ES HN HE HX HCO HCB HT HI HAV.
  destruct (rates_eq o f il p n HA HP HD HL HR EM NZ) as (brand & d & p1 & p2 & RS & D1 & EB & -> & D2). cbn [set_ftyp q_duration q_audio] in *. rewrite D2 in *.
  pose proof (stsd_small o f HA) as SM. rewrite ES in SM, RS. unfold mp4a_stsd in *. destruct (mp4a_inner _ _ _ _ _ _ SM eq_refl HE) as [L1 L2].
  destruct (stsd_first count ($"mp4a") e (sbox ($"esds") (esds_bytes x config) ++ more) rest (mo_mode o) (set_duration d props_default) HN) as [EQ HDR]; [idok|discriminate|exact L1|exact HE|].
  cbv zeta in EQ. rewrite EQ in RS. unfold by_kind in RS. rewrite list_eqb_refl in RS. change (8 + 36) with 44 in RS. rewrite <- app_assoc in HDR.
  rewrite (mp4a_read _ _ _ x config (more ++ rest) c tail) in RS; auto; [|rewrite lenN_sbox in L2 by reflexivity; lia|destruct HT; lia|now apply plain_known|lia].
  assert (QA : q_audio p1 = Some (x_average x / 1000)).
  { injection RS as <-. unfold mp4a_props. replace (0 <? x_average x) with true by lia. reflexivity. }
  rewrite HST in EB. unfold bit_rates in EB. rewrite D1 in EB. replace (d =? 0) with false in EB by lia. destruct (U64_MAX <? _) in EB; [discriminate|]. cbn [set_overall q_audio] in EB. rewrite QA in EB.
  assert (P : 1 <= x_average x / 1000) by (apply N.div_le_lower_bound; lia). destruct (x_average x / 1000) as [|k] eqn:E; [lia|]. injection EB as <-. exact QA.
Qed.
(** No media data: an error in strict mode, otherwise no bit rates of file and data *)
Theorem C195_no_data : forall o f il, afile_ok o f -> mo_props o = true -> h_duration (f_media f) < 2 ^ 54 -> readable o f il -> mdat_size (f_top f) = None -> h_duration (f_media f) <> 0 ->
  mo_mode o = Strict -> forall x, mp4_read_all (encs (f_top f)) o <> Ok x.
Proof.
  intros o f il HA HP HD RD EM NZ ST x HX. destruct (read_all_eq o f il HA HP HD RD) as (brand & d & HM & E). rewrite E in HX. unfold rest_of in HX.
  destruct (read_stsd (f_stsd f) (mo_mode o) (set_duration d props_default)) as [p1|e|]; cbn [bind] in HX; try discriminate. replace (h_duration (f_media f) =? 0) with false in HX by lia. rewrite EM, ST in HX. discriminate.
Qed.

(** ** Examples: one second of audio after a track of something else *)
Definition ex_opts (m : pmode) : mopts := mkMo m true true true false.
Definition ex_media : media := mkMd false [0; 0; 0] 1 2 44100 44100 [85; 196; 0; 0].
Definition ex_hdlr (k : bytes) : box := leaf ($"hdlr") (repeat 0 8 ++ k ++ repeat 0 13).
Definition ex_ftyp : box := leaf ($"ftyp") ($"M4A " ++ [0; 0; 2; 0]).
Definition ex_other : box := node ($"trak") [leaf ($"tkhd") [0]; node ($"mdia") [ex_hdlr ($"vide"); leaf ($"mdhd") (media_bytes (mkMd false [0; 0; 0] 0 0 1 1 [])); node ($"minf") [leaf ($"smhd") [0]]]].
Definition ex_file (stsd : bytes) (stts : list (N * N)) : afile :=
  mkAf [ex_ftyp] [leaf ($"mvhd") [0]; ex_other] [leaf ($"tkhd") [1; 2]] [ex_hdlr ($"soun")] ex_media [] [leaf ($"smhd") [0]] [] stsd [] stts [leaf ($"stsz") [1]] [leaf ($"dinf") [3]] [leaf ($"edts") [4]] [leaf ($"iods") [5]] [leaf ($"mdat") (repeat 7 2000)].
Definition ex_entry : entry := mkEn (repeat 0 6 ++ [0; 1]) (repeat 0 6) 2 (be_enc 2 16 ++ repeat 0 4) (48000 * 2 ^ 16).
Definition ex_stream : stream := mkEs [128; 128; 128; 34] [0; 0; 0] [128; 128; 128; 20] 0x40 (0x15 :: repeat 0 7) 128000 [128; 128; 128; 2] [6; 128; 128; 128; 1; 2].
(** AAC LC, 44100 Hz, two channels *)
Definition ex_config : aconfig := mkAc 2 4 0 2.
Definition ex_aac : afile := ex_file (mp4a_stsd 1 ex_entry ex_stream [0x12; 0x10] [] []) [(43, 1024)].
Ltac ev := repeat split; vm_compute; try reflexivity; try discriminate; try lia.
Fixpoint ok_box (b : box) : bool :=
  match b with
  | Leaf s id c => (s =? 8 + lenN c) && (s <? 2 ^ 32) && ((lenN id =? 4) && forallb (fun x => (0x20 <=? x) && (x <=? 0x7E) || (x =? 0xA9)) id) && negb (list_eqb id ($"----")) && negb (existsb (list_eqb id) CONTAINERS)
  | Node s id ks => (s =? 8 + lenN (flat_map enc ks)) && (s <? 2 ^ 32) && existsb (list_eqb id) CONTAINERS && (fix all (l : list box) : bool := match l with [] => true | k :: l => ok_box k && all l end) ks
  end.
Lemma ok_box_ok : forall b, ok_box b = true -> box_ok b.
Proof.
  assert (EX : forall id, existsb (list_eqb id) CONTAINERS = true <-> In id CONTAINERS).
  { intros id. rewrite existsb_exists. split; [intros (x & I & E); apply list_eqb_eq in E; now subst|intros I; exists id; split; [exact I|apply list_eqb_refl]]. }
  induction b as [s id c|s id ks IH] using box_ind'; cbn [ok_box box_ok]; intros H.
  - repeat (apply andb_prop in H; destruct H as [H ?]). apply andb_prop in H2. destruct H2 as [L4 FB]. repeat split; try lia.
    + rewrite forallb_forall in FB. apply Forall_forall. intros x X. specialize (FB x X). lia.
    + intros ->. rewrite list_eqb_refl in H1. discriminate.
    + intros I. apply EX in I. rewrite I in H0. discriminate.
  - repeat (apply andb_prop in H; destruct H as [H ?]). repeat split; try lia; [now apply EX|]. clear - IH H0. induction ks as [|k ks IHk]; [exact I|]. inversion IH as [|? ? HK HKS]; subst. apply andb_prop in H0. destruct H0 as [A B]. split; [exact (HK A)|exact (IHk HKS B)].
Qed.
Lemma ok_boxes : forall l, forallb ok_box l = true -> boxes_ok l.
Proof. intros l H. rewrite forallb_forall in H. apply Forall_forall. intros x X. apply ok_box_ok. now apply H. Qed.
Ltac names := repeat (first [apply Forall_cons; [vm_compute; discriminate|] | apply Forall_nil]).
Lemma ex_silent : silent_trak ex_other.
Proof.
  intros s t1 s' mk t2 E N. unfold ex_other, node in E. injection E as <- E. destruct t1 as [|x t1]; [discriminate|]. injection E as <- E.
  destruct t1 as [|y t1]; [|injection E as <- E; destruct t1; discriminate]. injection E as <- <- <-.
  exists [ex_hdlr ($"vide"); leaf ($"mdhd") (media_bytes (mkMd false [0; 0; 0] 0 0 1 1 []))], [node ($"minf") [leaf ($"smhd") [0]]].
  split; [reflexivity|]. split; [names|]. split; [reflexivity|]. right. eexists. split; reflexivity.
Qed.
Lemma ex_quiet : quiet_trak ex_other.
Proof.
  intros _. eexists _, _. split; [reflexivity|]. right. eexists [leaf ($"tkhd") [0]], _, []. split; [reflexivity|]. split; [names|]. split; [reflexivity|]. split; constructor.
Qed.
Lemma ex_file_ok : forall m stsd stts, forallb ok_box (f_top (ex_file stsd stts)) = true -> stts_ok stts -> afile_ok (ex_opts m) (ex_file stsd stts).
Proof.
  intros m stsd stts HB HS. split; [now apply ok_boxes|]. split. { cbn [f_top ex_file f_pre app ftyp_first]. split; [reflexivity|]. exists ($"M4A "), ($"M4A "), [0; 0; 2; 0]. split; [reflexivity|]. split; [reflexivity|]. split; [|reflexivity]. repeat constructor; vm_compute; auto; try discriminate. }
  split; [names|]. split; [right; names|]. split. { constructor; [|constructor; [exact ex_quiet|constructor]]. intros E. vm_compute in E. discriminate. }
  split. { constructor; [|constructor; [exact ex_silent|constructor]]. intros s t1 s' mk t2 E. discriminate. }
  split; [names|]. split; [names|]. split; [reflexivity|]. split; [constructor|]. split; [ev|]. split; [names|]. split; [names|]. split; [names|exact HS].
Qed.
Lemma ex_readable : forall m stsd stts, forallb ok_box (f_top (ex_file stsd stts)) = true -> stts_ok stts -> readable (ex_opts m) (ex_file stsd stts) None.
Proof.
  intros m stsd stts HB HS. apply C191_readable; [now apply ex_file_ok|reflexivity|right; names|]. constructor; [|constructor; [|constructor]].
  - intros _. eexists _, _. split; [reflexivity|]. right. eexists [leaf ($"tkhd") [1; 2]], _, [leaf ($"edts") [4]]. split; [reflexivity|]. split; [names|]. split; [reflexivity|]. split; names.
  - intros E. vm_compute in E. discriminate.
Qed.
Ltac vr := vm_compute; reflexivity.
Ltac stt := split; [vm_compute; reflexivity|repeat constructor].
Example C191_example : afile_ok (ex_opts Strict) ex_aac /\ readable (ex_opts Strict) ex_aac None /\ complete (ex_opts Strict) ex_aac.
Proof.
  split; [apply ex_file_ok; [vr|stt]|]. split; [apply ex_readable; [vr|stt]|]. split; [reflexivity|]. split; [reflexivity|]. split; [vr|]. left. vm_compute. discriminate.
Qed.
Example C192_example : mp4_read_all (encs (f_top ex_aac)) (ex_opts Strict) = Ok (None, mkMp (Some AAC) (Some 2) 1000 (Some 19) (Some 16) (Some 44100) None (Some 2) false ($"M4A ")) /\
  entry_ok ex_entry /\ stream_ok ex_stream /\ aconfig_ok ex_config /\ config_bytes ex_config (3, 0) [0x12; 0x10] /\ plain_type 2 /\ codec_is 0x40 AAC.
Proof.
  split; [vm_compute; reflexivity|]. split; [ev|]. split.
  { split; [exists [128; 128; 128], 34; ev; repeat constructor; discriminate|]. split; [reflexivity|]. split; [exists [128; 128; 128], 20; ev; repeat constructor; discriminate|].
    split; [reflexivity|]. split; [reflexivity|]. split; [reflexivity|]. exists [128; 128; 128], 2. ev; repeat constructor; discriminate. }
  split; [ev|]. split; [ev|]. split; [ev|]. left. split; [now left|reflexivity].
Qed.
(** *** What the configuration says is not always what is reported *)
Definition C192_claim (R : aconfig -> Prop) : Prop := forall o f il count e x config more rest c tail k, afile_ok o f -> complete o f -> readable o f il ->
  f_stsd f = mp4a_stsd count e x config more rest -> 0 < count < 2 ^ 32 -> entry_ok e -> stream_ok x -> aconfig_ok c -> config_bytes c tail config -> n_channels e < 256 -> codec_is (x_codec x) k -> R c ->
  exists p, mp4_read_all (encs (f_top f)) o = Ok (il, p) /\ q_type p = Some (c_type c) /\ q_rate p = Some (rate_of c) /\
    q_channels p = Some (match channels_of (c_conf c) with Some n => n | None => n_channels e end).
Definition ex_with (config : bytes) : afile := ex_file (mp4a_stsd 1 ex_entry ex_stream config [] []) [(43, 1024)].
Lemma claim_false : forall (R : aconfig -> Prop) c tail config p, forallb ok_box (f_top (ex_with config)) && (lenN (encs (f_top (ex_with config))) <? 2 ^ 61) = true -> R c -> aconfig_ok c -> config_bytes c tail config ->
  mp4_read_all (encs (f_top (ex_with config))) (ex_opts Strict) = Ok (None, p) ->
  q_type p <> Some (c_type c) \/ q_rate p <> Some (rate_of c) \/ q_channels p <> Some (match channels_of (c_conf c) with Some n => n | None => 2 end) -> ~ C192_claim R.
Proof.
  intros R c tail config p HBL HR HC HCB E NE CL. destruct C192_example as (_ & E1 & E2 & _ & _ & _ & E3). apply andb_prop in HBL. destruct HBL as [HB HL]. apply N.ltb_lt in HL.
  assert (ST : stts_ok [(43, 1024)]) by stt. pose proof (ex_file_ok Strict _ _ HB ST) as HA. pose proof (ex_readable Strict _ _ HB ST) as RD.
  assert (CO : complete (ex_opts Strict) (ex_with config)). { split; [reflexivity|]. split; [reflexivity|]. split; [exact HL|]. left. vm_compute. discriminate. }
  destruct (CL (ex_opts Strict) (ex_with config) None 1 ex_entry ex_stream config [] [] c tail AAC HA CO RD eq_refl) as (p' & E' & P1 & P2 & P3);
    [split; reflexivity|exact E1|exact E2|exact HC|exact HCB|reflexivity|exact E3|exact HR|].
  rewrite E in E'. injection E' as <-. change (n_channels ex_entry) with 2 in P3. intuition congruence.
Qed.
(** Configuration 7: eight channels *)
Theorem C192_seven_refuted : ~ C192_claim (fun c => plain_type (c_type c) /\ c_index c <= 12 /\ c_conf c = 7).
Proof.
  eapply (claim_false _ (mkAc 2 4 0 7) (3, 0) [0x12; 0x38]); [vr|cbv beta; ev|ev|ev|vm_compute; reflexivity|]. right. right. discriminate.
Qed.
(** Object type 42 (USAC) is reported as 35 *)
Theorem C192_usac_refuted : ~ C192_claim (fun c => c_type c = 42 /\ c_index c <= 12 /\ c_conf c <= 6).
Proof. eapply (claim_false _ (mkAc 42 4 0 2) (5, 0) [0xF9; 0x48; 0x40]); [vr|cbv beta; ev|ev|ev|vm_compute; reflexivity|]. left. discriminate. Qed.
(** Object type 34: two channels become 64 *)
Theorem C192_extended_refuted : ~ C192_claim (fun c => c_type c = 34 /\ c_index c <= 12 /\ c_conf c <= 6).
Proof. eapply (claim_false _ (mkAc 34 4 0 2) (5, 0) [0xF8; 0x48; 0x40]); [vr|cbv beta; ev|ev|ev|vm_compute; reflexivity|]. right. right. discriminate. Qed.
(** A rate that is written out, here 44100 *)
Theorem C192_rate_refuted : ~ C192_claim (fun c => plain_type (c_type c) /\ c_index c = 15 /\ c_conf c <= 6).
Proof. eapply (claim_false _ (mkAc 2 15 44100 2) (3, 0) [0x17; 0x80; 0x56; 0x22; 0x10]); [vr|cbv beta; ev|ev|ev|vm_compute; reflexivity|]. right. left. discriminate. Qed.

Definition ex_alac : alac := mkAl [0; 0; 0; 0] [0; 0; 16; 0; 0] 24 [40; 10; 14] 2 (repeat 0 6) 700000 96000.
Example C193_alac_example : mp4_read_all (encs (f_top (ex_file (stsd_of 1 (sbox ($"alac") (entry_bytes ex_entry ++ sbox ($"alac") (alac_bytes ex_alac)))) [(1, 1)]))) (ex_opts Strict)
  = Ok (None, mkMp (Some ALAC) None 1000 (Some 19) (Some 700) (Some 96000) (Some 24) (Some 2) false ($"M4A ")) /\ alac_ok ex_alac.
Proof. split; [vm_compute; reflexivity|ev]. Qed.
Definition ex_info : info := mkIn (repeat 0 10) 48000 6 24 123456 (repeat 9 16).
Example C193_flac_example : mp4_read_all (encs (f_top (ex_file (stsd_of 1 (sbox ($"fLaC") (entry_bytes ex_entry ++ sbox ($"dfLa") (dfla_bytes ex_info true []) ++ []) ++ [])) [(1, 1024)]))) (ex_opts Strict)
  = Ok (None, mkMp (Some FLAC) None 1000 (Some 19) (Some 16) (Some 48000) (Some 24) (Some 6) false ($"M4A ")) /\ info_ok ex_info.
Proof. split; [vm_compute; reflexivity|ev]. Qed.
(** With a further atom in the sample entry (here the channel layout), ALAC is not recognised. *)
Theorem C193_alac_refuted : ~ (forall o f il e a more, afile_ok o f -> complete o f -> readable o f il ->
  f_stsd f = stsd_of 1 (sbox ($"alac") (entry_bytes e ++ sbox ($"alac") (alac_bytes a) ++ more)) -> entry_ok e -> alac_ok a ->
  exists p, mp4_read_all (encs (f_top f)) o = Ok (il, p) /\ q_codec p = Some ALAC).
Proof.
  intros H. assert (ST : stts_ok [(1, 1)]) by stt. set (more := sbox ($"chan") (repeat 0 16)).
  destruct (H (ex_opts Strict) (ex_file (stsd_of 1 (sbox ($"alac") (entry_bytes ex_entry ++ sbox ($"alac") (alac_bytes ex_alac) ++ more))) [(1, 1)]) None ex_entry ex_alac more) as (p & E & C).
  - apply ex_file_ok; [vr|exact ST].
  - split; [reflexivity|]. split; [reflexivity|]. split; [vr|]. left. vm_compute. discriminate.
  - apply ex_readable; [vr|exact ST].
  - reflexivity.
  - ev.
  - ev.
  - vm_compute in E. injection E as <-. vm_compute in C. discriminate.
Qed.
Definition ex_drm (k : bytes) : afile := ex_file (stsd_of 1 (sbox k (entry_bytes ex_entry ++ repeat 0 40))) [(1, 1)].
Example C194_example :
  mp4_read_all (encs (f_top (ex_drm ($"drms")))) (ex_opts Strict) = Ok (None, mkMp None None 1000 (Some 19) (Some 16) (Some 48000) None (Some 2) true ($"M4A ")) /\
  mp4_read_all (encs (f_top (ex_drm ($"ac-3")))) (ex_opts Strict) = Ok (None, mkMp None None 1000 (Some 19) (Some 16) (Some 48000) None (Some 2) false ($"M4A ")).
Proof. split; vm_compute; reflexivity. Qed.
(** An entry after it is not found, or read from the wrong place. *)
Theorem C194_second_refuted : ~ (forall o f il e1 inner e x config c tail, afile_ok o f -> complete o f -> readable o f il ->
  f_stsd f = stsd_of 2 (sbox ($"drms") (entry_bytes e1 ++ inner) ++ sbox ($"mp4a") (entry_bytes e ++ sbox ($"esds") (esds_bytes x config))) ->
  entry_ok e1 -> entry_ok e -> stream_ok x -> aconfig_ok c -> config_bytes c tail config -> plain_type (c_type c) -> c_index c <= 12 ->
  exists p, mp4_read_all (encs (f_top f)) o = Ok (il, p) /\ q_type p = Some (c_type c)).
Proof.
  intros H. assert (ST : stts_ok [(1, 1)]) by stt. destruct C192_example as (_ & E1 & E2 & E3 & E4 & E5 & _).
  destruct (H (ex_opts Relaxed) (ex_file (stsd_of 2 (sbox ($"drms") (entry_bytes ex_entry ++ repeat 0 40) ++ sbox ($"mp4a") (entry_bytes ex_entry ++ sbox ($"esds") (esds_bytes ex_stream [0x12; 0x10])))) [(1, 1)]) None
    ex_entry (repeat 0 40) ex_entry ex_stream [0x12; 0x10] ex_config (3, 0)) as (p & E & C).
  - apply ex_file_ok; [vr|exact ST].
  - split; [reflexivity|]. split; [reflexivity|]. split; [vr|]. left. vm_compute. discriminate.
  - apply ex_readable; [vr|exact ST].
  - reflexivity.
  - exact E1.
  - exact E1.
  - exact E2.
  - exact E3.
  - exact E4.
  - exact E5.
  - vm_compute. discriminate.
  - vm_compute in E. first [discriminate | injection E as <-; vm_compute in C; discriminate].
Qed.
Example C195_example : map snd (f_stts ex_aac) <> [1] /\ mdat_size (f_top ex_aac) = Some 2000 /\
  mp4_read_all (encs (f_top (ex_file (mp4a_stsd 1 ex_entry ex_stream [0x12; 0x10] [] []) [(44100, 1)]))) (ex_opts Strict)
  = Ok (None, mkMp (Some AAC) (Some 2) 1000 (Some 19) (Some 128) (Some 44100) None (Some 2) false ($"M4A ")).
Proof. split; [discriminate|]. split; vm_compute; reflexivity. Qed.

(** ** C197. The order of the atoms in the media of the track *)
Definition ex_reorder : afile := mkAf (f_pre ex_aac) (f_k1 ex_aac) (f_t1 ex_aac) [] ex_media [ex_hdlr ($"soun")] (f_i1 ex_aac) (f_s1 ex_aac) (f_stsd ex_aac) (f_s2 ex_aac) (f_stts ex_aac) (f_s3 ex_aac) (f_i2 ex_aac) (f_t2 ex_aac) (f_k2 ex_aac) (f_post ex_aac).
Definition ex_order (ks : list box) : list box := [ex_ftyp; node ($"moov") [node ($"trak") [node ($"mdia") ks]]; leaf ($"mdat") (repeat 7 200)].
Lemma perm_len : forall a b, Permutation.Permutation a b -> lenN (encs a) = lenN (encs b).
Proof. intros a b H. induction H; rewrite ?encs_cons, ?lenN_app in *; try reflexivity; lia. Qed.
Lemma millis_unique : forall h a b, millis h a -> millis h b -> a = b.
Proof. intros h a b [[Z ->]|[NZ A]] [[Z' ->]|[NZ' B]]; try congruence; nia. Qed.
Lemma mdat_other : forall pre ks ks' post, mdat_size (pre ++ node ($"moov") ks :: post) = mdat_size (pre ++ node ($"moov") ks' :: post).
Proof. intros pre ks ks' post. induction pre as [|[s id c|s id l] pre IH]; cbn [app mdat_size]; [reflexivity| |exact IH]. destruct (list_eqb id ($"mdat")); [reflexivity|exact IH]. Qed.
(** The media header, the handlers and what else comes before [minf] can stand in any order. *)
Theorem C197_order_partial : forall o f g il il' p p', afile_ok o f -> afile_ok o g -> mo_props o = true -> h_duration (f_media f) < 2 ^ 54 ->
  g = mkAf (f_pre f) (f_k1 f) (f_t1 f) (f_a1 g) (f_media f) (f_a2 g) (f_i1 f) (f_s1 f) (f_stsd f) (f_s2 f) (f_stts f) (f_s3 f) (f_i2 f) (f_t2 f) (f_k2 f) (f_post f) ->
  Permutation.Permutation (f_handlers f) (f_handlers g) ->
  mp4_read_all (encs (f_top f)) o = Ok (il, p) -> mp4_read_all (encs (f_top g)) o = Ok (il', p') -> set_ftyp [] p = set_ftyp [] p'.
Proof.
  intros o f g il il' p p' HA HB HP HD EG PE E1 E2.
  assert (RD : forall h x q, mp4_read_all (encs (f_top h)) o = Ok (x, q) -> readable o h x).
  { intros h x q HR. unfold mp4_read_all in HR. destruct (mp4_read _ o) as [[[brand tr] il1]|e|] eqn:E; cbn [bind] in HR; try discriminate. rewrite HP in HR.
    destruct (mp4_properties _ _ _); cbn [bind] in HR; try discriminate. injection HR as -> _. exists brand, tr. exact E. }
  assert (MG : f_media g = f_media f) by now rewrite EG.
  destruct (read_all_eq o f il HA HP HD (RD _ _ _ E1)) as (b1 & d1 & M1 & Q1). destruct (read_all_eq o g il' HB HP) as (b2 & d2 & M2 & Q2); [now rewrite MG|exact (RD _ _ _ E2)|].
  rewrite MG in M2. rewrite (millis_unique _ _ _ M2 M1) in Q2. rewrite E1 in Q1. rewrite E2 in Q2.
  assert (LT : lenN (encs (f_top g)) = lenN (encs (f_top f))).
  { pose proof (perm_len _ _ PE) as PL. rewrite EG. rewrite EG in PL. unfold f_top, f_trak, f_mdia, f_minf. cbn [f_pre f_k1 f_t1 f_i1 f_i2 f_t2 f_k2 f_post].
    match goal with |- context [node ($"mdia") (f_handlers ?g' ++ _)] => change (f_stbl g') with (f_stbl f); set (G := g') in * end.
    rewrite !encs_app, !encs_one, !lenN_app. do 2 f_equal. unfold node. cbn [enc]. fold encs. rewrite !lenN_hd by reflexivity. f_equal.
    change (flat_map enc) with encs. rewrite !encs_app, !encs_one, !lenN_app. do 2 f_equal. cbn [enc]. rewrite !lenN_hd by reflexivity. f_equal.
    change (flat_map enc) with encs. rewrite !encs_app, !encs_one, !lenN_app. do 2 f_equal. cbn [enc]. rewrite !lenN_hd by reflexivity. f_equal.
    change (flat_map enc) with encs. rewrite !encs_app, !encs_one, !lenN_app. now rewrite PL. }
  assert (MS : mdat_size (f_top g) = mdat_size (f_top f)).
  { rewrite EG. unfold f_top. cbn [f_pre f_post]. apply mdat_other. }
  assert (RR : forall q, rest_of o g q = rest_of o f q).
  { intros q. unfold rest_of. rewrite LT, MS, MG. rewrite EG at 1. cbn [f_stsd]. replace (f_stts g) with (f_stts f) by now rewrite EG. reflexivity. }
  rewrite RR in Q2. destruct (rest_of o f (set_duration d1 props_default)) as [q|e|]; cbn [bind] in Q1, Q2; try discriminate. injection Q1 as ->. injection Q2 as ->. reflexivity.
Qed.
Example C197_example : let f := ex_aac in let g := ex_reorder in Permutation.Permutation (f_handlers f) (f_handlers g) /\ afile_ok (ex_opts Strict) g /\
  g = mkAf (f_pre f) (f_k1 f) (f_t1 f) (f_a1 g) (f_media f) (f_a2 g) (f_i1 f) (f_s1 f) (f_stsd f) (f_s2 f) (f_stts f) (f_s3 f) (f_i2 f) (f_t2 f) (f_k2 f) (f_post f) /\
  mp4_read_all (encs (f_top g)) (ex_opts Strict) = mp4_read_all (encs (f_top f)) (ex_opts Strict).
Proof.
  cbv zeta. split; [vm_compute; apply Permutation.perm_swap|]. split; [|split; [reflexivity|vm_compute; reflexivity]].
  pose proof (proj1 C191_example) as A. unfold afile_ok in *. destruct A as (A1 & A2 & A3 & A4 & A5 & A6 & A7 & _ & _ & _ & A8).
  split; [apply ok_boxes; vr|]. split; [exact A2|]. split; [exact A3|]. split; [exact A4|]. split; [exact A5|].
  split; [exact A6|]. split; [exact A7|]. split; [names|]. split; [reflexivity|]. split; [names|]. exact A8.
Qed.
(** With [minf] before the handler no audio track is found, although the media is the same. *)
Definition ex_minf : box := node ($"minf") [leaf ($"smhd") [0]; node ($"stbl") [leaf ($"stsd") (f_stsd ex_aac); leaf ($"stts") (stts_bytes [(43, 1024)])]].
Definition ex_mdhd : box := leaf ($"mdhd") (media_bytes ex_media).
Theorem C197_order_refuted : ~ (forall o ks ks' x, Permutation.Permutation ks ks' -> mp4_read_all (encs (ex_order ks)) o = Ok x -> exists x', mp4_read_all (encs (ex_order ks')) o = Ok x').
Proof.
  intros H. assert (P : Permutation.Permutation [ex_mdhd; ex_hdlr ($"soun"); ex_minf] [ex_mdhd; ex_minf; ex_hdlr ($"soun")]) by (apply Permutation.perm_skip; apply Permutation.perm_swap).
  assert (E : exists x, mp4_read_all (encs (ex_order [ex_mdhd; ex_hdlr ($"soun"); ex_minf])) (ex_opts Relaxed) = Ok x) by (eexists; vm_compute; reflexivity).
  destruct E as [x E]. destruct (H _ _ _ _ P E) as [x' E']. vm_compute in E'. discriminate.
Qed.

(** ** C196. Reading ends *)
(** Data of less than 4 GiB: none of the loops needs more steps than it is given. The bounds of a reader are those of the data, or of [moov]. *)
Theorem C196_terminates : forall data L r k, bytes_ok data -> L < 2 ^ 32 -> lim L r ->
  let fuel := S (length data) in
  (forall m, moov_find (fuel + k) data m r = moov_find fuel data m r) /\
  (forall o t il, moov_parse (fuel + k) data o r t il = moov_parse fuel data o r t il) /\
  (forall len want m, find_child (fuel + k) data len want m r = find_child fuel data len want m r) /\
  (forall m want limit seen, find_in (fuel + k) data m want limit seen r = find_in fuel data m want limit seen r) /\
  (forall o tag gs, ilst_loop (fuel + k) data o r tag gs = ilst_loop fuel data o r tag gs) /\
  (forall m n pos acc, data_loop (fuel + k) data m n pos r acc = data_loop fuel data m n pos r acc) /\
  (forall m limit seen t, mdia_loop (fuel + k) data m limit seen r t = mdia_loop fuel data m limit seen r t) /\
  (forall m limit seen a b, stbl_loop (fuel + k) data m limit seen r a b = stbl_loop fuel data m limit seen r a b) /\
  (forall count, stts_entries (fuel + k) data count r = stts_entries fuel data count r) /\
  (forall m count p, stsd_loop (fuel + k) data m count r p = stsd_loop fuel data m count r p) /\
  (forall m, mdat_loop (fuel + k) data m r = mdat_loop fuel data m r).
Proof.
  intros data L r k DOK LS HL fuel. assert (E0 : enough data fuel r) by (unfold fuel; rewrite <- (Nat.add_0_r (S (length data))); eapply enough_start; eauto). assert (EK : enough data (fuel + k) r) by (eapply enough_start; eauto).
  repeat split; intros.
  - eapply moov_find_fuel; eauto.
  - eapply moov_parse_fuel; eauto.
  - eapply find_child_fuel; eauto.
  - eapply find_in_fuel; eauto.
  - eapply ilst_fuel; eauto.
  - eapply data_loop_fuel; eauto.
  - eapply mdia_fuel; eauto.
  - eapply stbl_fuel; eauto.
  - eapply stts_fuel; eauto.
  - eapply stsd_fuel; eauto.
  - eapply mdat_loop_fuel; eauto.
Qed.
Theorem C196_bounds : forall data m f s r i r', bytes_ok data -> lenN data + 8 < 2 ^ 32 -> lim (lenN data) (atom_reader data) /\
  (verify_mp4 data m (atom_reader data) = Ok (s, r) -> moov_find f data m r = Ok (i, r') -> lim (lenN data) r /\ lim (lenN data + 8) (reset_bounds (a_start i + 8) (a_len i - 8) r')).
Proof.
  intros data m f s r i r' DOK LS. assert (OV : over data (atom_reader data)) by (exists 0; unfold atom_reader; do 3 f_equal; lia). split; [now apply over_lim|]. intros HV HF.
  assert (OR : over data r) by (eapply over_verify; eauto). split; [now apply over_lim|]. eapply moov_bounds; eauto. eapply find_len; eauto.
Qed.
(** An atom without a size at the right distance from the end of a larger file: skipping it leads back to it, again and again. *)
Theorem C196_endless_refuted : ~ (forall data m, bytes_ok data -> forall s r, verify_mp4 data m (atom_reader data) = Ok (s, r) -> exists fuel, moov_find fuel data m r <> Panic).
Proof.
  intros H. assert (Z : exists z : bytes, lenN z = 2 ^ 32 /\ bytes_ok z).
  { exists (repeat 0 (N.to_nat (2 ^ 32))). split; [unfold lenN; rewrite repeat_length; lia|apply Forall_forall; intros x X; apply repeat_spec in X; subst; reflexivity]. }
  destruct Z as (z & LZ & OZ). set (data := (be_enc 4 16 ++ $"ftyp" ++ $"M4A " ++ [0; 0; 2; 0]) ++ (be_enc 4 0 ++ $"free") ++ z).
  assert (LD : lenN data = 2 ^ 32 + 24) by (unfold data; rewrite !lenN_app, LZ; reflexivity).
  assert (D16 : dropN 16 data = be_enc 4 0 ++ $"free" ++ z) by (unfold data; rewrite dropN_app by reflexivity; now rewrite <- app_assoc).
  assert (V : verify_mp4 data Strict (atom_reader data) = Ok ($"M4A ", at_pos data 16)).
  { rewrite at_start. assert (D0 : dropN 0 data = enc ex_ftyp ++ ((be_enc 4 0 ++ $"free") ++ z)) by reflexivity. unfold verify_mp4. rewrite (at_next data Strict 0 ex_ftyp _ D0) by (apply box_ok_hd; apply ok_box_ok; reflexivity). cbn [bind a_ident a_len is_fourcc]. change (list_eqb (box_name ex_ftyp) ($"ftyp")) with true. cbn [negb].
    change (lenN (enc ex_ftyp)) with 16. change (16 <? 12) with false. cbv iota.
    rewrite (at_exact data (0 + 8) ($"M4A ") ([0; 0; 2; 0] ++ (be_enc 4 0 ++ $"free") ++ z) 4) by reflexivity. cbn [bind]. change (Z.of_N (16 - 12)) with (Z.of_N 4). rewrite at_seek_cur. reflexivity. }
  assert (N16 : next data Strict (at_pos data 16) = Ok (Some (mkAi 16 (2 ^ 32) false (Fourcc ($"free"))), at_pos data 24)).
  { unfold next. unfold at_pos at 1 2. cbn [r_bound b_rem]. rewrite LD. change (2 ^ 32 + 24 - 16 =? 0) with false. change (2 ^ 32 + 24 - 16 <? 8) with false. cbv iota. unfold read_info, read_head.
    rewrite (at_be_raw data 16 (be_enc 4 0) _ 4 D16 eq_refl). cbn [bind]. assert (D20 : dropN (16 + 4) data = $"free" ++ z) by (apply drop_more with (a := be_enc 4 0); [exact D16|reflexivity]). rewrite (at_exact data (16 + 4) ($"free") z 4 D20 eq_refl). cbn [bind].
    change (forallb valid_ident_byte ($"free")) with true. cbn [negb]. change (be_dec (be_enc 4 0) =? 0) with true. cbv iota zeta.
    assert (SE : seek_end data (at_pos data (16 + 4 + 4)) = at_pos data (lenN data)) by (unfold seek_end, at_pos; cbn; do 3 f_equal; lia). rewrite SE. cbn [at_pos r_pos]. unfold msub. rewrite LD. change (2 ^ 32 + 24 <? 16 + 4 + 4) with false. cbn [bind].
    rewrite <- LD. fold (at_pos data (lenN data)). rewrite at_seek by (rewrite LD; lia). rewrite LD. reflexivity. }
  destruct (H data Strict) with (s := $"M4A ") (r := at_pos data 16) as [fuel HF]; [|exact V|]. 
  { unfold data. rewrite !Forall_app. repeat split; try exact OZ; repeat constructor. }
  apply HF. clear HF. induction fuel as [|fuel IH]; [reflexivity|]. cbn [moov_find]. rewrite N16. cbn [a_ident is_fourcc a_ext a_len]. change (list_eqb ($"free") ($"moov")) with false. cbv iota.
  replace (skip_atom false (2 ^ 32) (at_pos data 24)) with (Ok (E := mp4_error) (at_pos data 16)). { cbn [bind]. exact IH. }
  symmetry. unfold skip_atom. cbn [negb]. change (Z.of_N (2 ^ 32 mod 2 ^ 32) - 8)%Z with (-8)%Z. unfold seek_cur, at_pos. cbn [r_pos r_bound]. change (Z.of_N 24 + -8 <? 0)%Z with false. change (-8 <? 0)%Z with true. cbv iota. cbn [b_start b_rem b_len]. rewrite LD. reflexivity.
Qed.
(** Inputs that make it panic (with overflow checks), small and not: a duration that does not fit, *)
Definition ex_wide : bytes := encs (ex_order [ex_hdlr ($"soun"); leaf ($"mdhd") (media_bytes (mkMd true [0; 0; 0] 1 2 1000 (2 ^ 62) [85; 196; 0; 0])); node ($"minf") [leaf ($"smhd") [0]]]).
(** a FLAC configuration without content, a lossless stream with 256 channels, *)
Definition ex_sound (stsd : bytes) : bytes := encs (ex_order [ex_hdlr ($"soun"); ex_mdhd; node ($"minf") [node ($"stbl") [leaf ($"stsd") stsd]]]).
Definition ex_noflac : bytes := ex_sound (stsd_of 1 (sbox ($"fLaC") (entry_bytes ex_entry ++ sbox ($"dfLa") [0; 0; 0]) ++ repeat 0 8)).
Definition ex_lossless : bytes := ex_sound (mp4a_stsd 1 ex_entry ex_stream ([0xF8; 0x88; 0x40] ++ 0 :: $"ALS" ++ [0] ++ be_enc 4 44100 ++ repeat 0 4 ++ be_enc 2 255) [] []).
(** and a freeform item whose name lies behind its end. *)
Definition ex_over : bytes :=
  let item := be_enc 4 1 ++ $"----" ++ be_enc 8 32 ++ sbox ($"mean") [0; 0; 0; 0] ++ sbox ($"name") [0; 0; 0; 0] in
  sbox ($"ftyp") ($"M4A " ++ [0; 0; 2; 0]) ++ sbox ($"moov") (sbox ($"udta") (sbox ($"meta") ([0; 0; 0; 0] ++ sbox ($"ilst") item))).
Theorem C196_wide_refuted : ~ (forall data o, bytes_ok data -> mp4_read_all data o <> Panic).
Proof. intros H. apply (H ex_wide (ex_opts Strict)); [assert (F : forallb (fun x => x <? 256) ex_wide = true) by (vm_compute; reflexivity); rewrite forallb_forall in F; apply Forall_forall; intros x X; specialize (F x X); unfold byte_ok; lia|]. vm_compute. reflexivity. Qed.
Example C196_panics : map (fun d => mp4_read_all d (ex_opts Strict)) [ex_noflac; ex_lossless; ex_over] = [Panic; Panic; Panic].
Proof. vm_compute. reflexivity. Qed.
Example C196_example : lim (lenN (encs (f_top ex_aac))) (atom_reader (encs (f_top ex_aac))) /\ lenN (encs (f_top ex_aac)) + 8 < 2 ^ 32.
Proof. split; vm_compute; [discriminate|reflexivity]. Qed.

Print Assumptions C191_duration.
Print Assumptions C191_readable.
Print Assumptions C192_mp4a.
Print Assumptions C192_extended_partial.
Print Assumptions C193_alac.
Print Assumptions C193_flac.
Print Assumptions C194_other.
Print Assumptions C195_overall.
Print Assumptions C195_audio.
Print Assumptions C195_average.
Print Assumptions C195_no_data.
Print Assumptions C192_seven_refuted.
Print Assumptions C192_usac_refuted.
Print Assumptions C192_extended_refuted.
Print Assumptions C192_rate_refuted.
Print Assumptions C193_alac_refuted.
Print Assumptions C194_second_refuted.
Print Assumptions C197_order_partial.
Print Assumptions C197_order_refuted.
Print Assumptions C196_terminates.
Print Assumptions C196_bounds.
Print Assumptions C196_endless_refuted.
Print Assumptions C196_wide_refuted.
