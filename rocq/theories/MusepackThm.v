(** Musepack files. *)
From Verif Require Import BaseLemmas StrLemmas MathModel MathThm Id3v1Model Id3v1Thm Id3v2HeaderModel Id3v2HeaderProof FrameReadModel ApeModel ApeThm2 AiffModel MpegModel MpegProof MpegProof3 TailProof.
From Verif Require Export MusepackProof4.
From Verif Require Import Base Str.

(** [t] is the integer nearest to [a / b]. *)
Definition nearest (t a b : N) : Prop := 2 * t * b <= 2 * a + b < 2 * (t + 1) * b.
(** Reading gives the tags as they are and these properties. *)
Definition read_as (inflate : bytes -> option bytes) (log_peak : N -> N) (o : mopts) (pre body ape v1 : bytes) (v2 : option id3v2_tag) (v1t : option id3v1) (p : mpc_props) : Prop :=
  exists f, mpc_read inflate log_peak o (pre ++ body ++ ape ++ v1) = Ok f /\ mc_id3v2 f = v2 /\ mc_id3v1 f = v1t /\ ape_of o ape (mc_ape f) /\ mc_props f = p.
Lemma read_shape : forall inflate log_peak o pre body ape v1 v2 v1t p, mpc_tags inflate o pre body ape v1 v2 v1t -> 32 <= lenN (body ++ ape) -> takeN 3 (body ++ ape ++ v1) <> $"ID3" -> (mo_tags o = true \/ lenN ape <= lenN pre + lenN body + 32) ->
  mpc_stream log_peak o (seen_len o pre body) (body ++ ape ++ v1) = Ok p -> read_as inflate log_peak o pre body ape v1 v2 v1t p.
Proof.
  intros inflate log_peak o pre body ape v1 v2 v1t p MT L NI S E. destruct (mpc_shape inflate log_peak o pre body ape v1 v2 v1t MT L NI) as (t & A & R). rewrite E in R. cbn [bind] in R.
  replace (negb (mo_tags o) && _) with false in R. { eexists. split; [exact R|]. auto. } symmetry. destruct S as [S|S]; [now rewrite S|]. destruct (N.ltb_spec (lenN pre + lenN body + 32) (lenN ape)); [lia|]. apply andb_false_r.
Qed.

(** ** Version 8 *)
Definition props8 (h : head8) (g : gain8) (e : option enc8) (d b : N) : sv8_props := mk8 d b (header_is h) (gain_is g) (option_map enc_is e).
Lemma sv8_start : forall log_peak o sl r, mo_props o = true -> mpc_stream log_peak o sl ($"MPCK" ++ r) = let? p := sv8_read (mo_strict o) r in Ok (P8 p).
Proof. intros log_peak o sl r MP. unfold mpc_stream. rewrite read_exact_app by reflexivity. cbn [io bind]. rewrite MP. reflexivity. Qed.
Lemma sv8_not_id3 : forall l n last rest tail, takeN 3 (sv8_bytes l n last rest ++ tail) <> $"ID3".
Proof. intros. unfold sv8_bytes. rewrite <- !app_assoc. rewrite takeN_app_le by (vm_compute; discriminate). vm_compute. discriminate. Qed.
Theorem C186_properties : forall inflate log_peak o pre l n last rest ape v1 v2 v1t h g, let body := sv8_bytes l n last rest in let total := e_samples h - e_silence h in let len := contents_len l + lenN last in let rate := mpc_rate (e_rate h) in
  mo_props o = true -> mpc_tags inflate o pre body ape v1 v2 v1t -> (mo_tags o = true \/ lenN ape <= lenN pre + lenN body + 32) -> 32 <= lenN (body ++ ape) -> sv8_ok l n last -> the_head l = Some h -> the_gain l = Some g -> head8_ok h ->
  e_silence h < e_samples h -> total < 2 ^ 54 -> len < 2 ^ 45 -> len * 8 * rate < 2 ^ 32 * (total * 1000) ->
  exists d b, read_as inflate log_peak o pre body ape v1 v2 v1t (P8 (props8 h g (the_enc l) d b)) /\ nearest d (total * 1000) rate /\ b = len * 8 * rate / (total * 1000).
Proof.
  intros inflate log_peak o pre l n last rest ape v1 v2 v1t h g body total len rate MP MT SZ L32 OK TH TG HO SI T54 LL BL.
  assert (RP : 32000 <= rate <= 48000) by (apply rate_pos; apply HO).
  assert (LH : 0 < len).
  { assert (X : forall l, the_head l = Some h -> 0 < contents_len l). { clear. induction l as [|[m q] l IH]; [discriminate|]. intros TH. change (contents_len ((m, q) :: l)) with (lenN (content_of q) + contents_len l). unfold the_head in TH. cbn [pick] in TH. fold (the_head l) in TH. destruct (the_head l); [specialize (IH TH); lia|].
      destruct q; try discriminate. cbn [content_of]. unfold head8_bytes. rewrite !lenN_app, be_enc_len. lia. } specialize (X l TH). unfold len. lia. }
  pose proof (sv8_shape (mo_strict o) l n last (rest ++ ape ++ v1) OK) as SH. fold len in SH. specialize (SH ltac:(unfold U64_MAX; lia)). rewrite TH, TG in SH. cbn [bind] in SH. destruct (N.eqb_spec len 0); [lia|]. cbn [andb] in SH.
  unfold sv8_finish in SH. change (sh_samples (header_is h)) with (e_samples h) in SH. change (sh_silence (header_is h)) with (e_silence h) in SH. change (sh_rate (header_is h)) with rate in SH.
  destruct (N.ltb_spec (e_samples h) (e_silence h)); [lia|]. destruct (N.eqb_spec rate 0); [lia|]. destruct (N.eqb_spec (e_samples h) 0); [lia|]. fold total in SH. assert (TP : 0 < total) by (unfold total; lia). destruct (N.eqb_spec total 0); [lia|].
  unfold u64_mul, u64_div_round, u64_div in SH. destruct (N.ltb_spec U64_MAX (total * 1000)) as [X|X]; [unfold U64_MAX in X; lia|]. cbn [bind] in SH.
  pose proof (C37_div_round U64_MAX (total * 1000) rate) as D. destruct (div_round _ _ _) as [q| |]; [|contradiction|exfalso; destruct D as [D|D]; [lia|]; assert (rate / 2 <= 24000) by (apply N.div_le_upper_bound; lia); unfold U64_MAX in D; lia]. cbn [bind] in SH. destruct D as [_ D].
  destruct (N.ltb_spec U64_MAX (len * 8)) as [Y|Y]; [unfold U64_MAX in Y; lia|]. cbn [bind] in SH. assert (SB : len * 8 * rate <= len * 8 * 48000) by (apply N.mul_le_mono_l; lia). destruct (N.ltb_spec U64_MAX (len * 8 * rate)) as [Z|Z]; [unfold U64_MAX in Z; lia|]. cbn [bind] in SH.
  destruct (N.eqb_spec (total * 1000) 0); [lia|]. cbn [bind] in SH. rewrite (N.mod_small (_ / _)) in SH by (apply N.div_lt_upper_bound; [lia|lia]).
  exists q, (len * 8 * rate / (total * 1000)). split; [|split; [exact D|reflexivity]]. apply read_shape; auto. { apply sv8_not_id3. }
  unfold body, sv8_bytes. rewrite <- !app_assoc. rewrite sv8_start by auto. rewrite SH. reflexivity.
Qed.
(** Without the header or the gains, strict reading fails. *)
Theorem C186_required : forall inflate log_peak o pre l n last rest ape v1 v2 v1t f, let body := sv8_bytes l n last rest in
  mo_props o = true -> mo_strict o = true -> mpc_tags inflate o pre body ape v1 v2 v1t -> 32 <= lenN (body ++ ape) -> sv8_ok l n last -> contents_len l + lenN last < 2 ^ 64 -> the_head l = None \/ the_gain l = None ->
  mpc_read inflate log_peak o (pre ++ body ++ ape ++ v1) <> Ok f.
Proof.
  intros inflate log_peak o pre l n last rest ape v1 v2 v1t f body MP ST MT L32 OK SL MI H. destruct (mpc_shape inflate log_peak o pre body ape v1 v2 v1t MT L32 (sv8_not_id3 _ _ _ _ _)) as (t & _ & R). rewrite R in H. clear R. destruct (_ && _); [discriminate|].
  unfold body, sv8_bytes in H. rewrite <- !app_assoc in H. rewrite sv8_start in H by auto. rewrite sv8_shape in H by (auto; unfold U64_MAX; lia). rewrite ST in H. destruct MI as [E|E]; rewrite E in H; [discriminate|]. destruct (the_head l); discriminate.
Qed.

(** ** Version 7 *)
Lemma head7_len : forall h, lenN (head7_bytes h) = 28.
Proof. intros. unfold head7_bytes. rewrite !lenN_app, !le_enc_len. reflexivity. Qed.
Lemma sv7_start : forall log_peak o sl h r, mo_props o = true -> mpc_stream log_peak o sl (head7_bytes h ++ r) = let? p := sv7_read log_peak sl (dropN 3 (head7_bytes h ++ r)) in Ok (P7 p).
Proof.
  intros log_peak o sl h r MP. unfold mpc_stream. assert (E : exists t, head7_bytes h ++ r = ($"MP+" ++ [d_minor h * 16 + 7]) ++ t) by (eexists; unfold head7_bytes; rewrite <- !app_assoc; reflexivity). destruct E as [t E]. rewrite E. rewrite read_exact_app by reflexivity. cbn [io bind]. rewrite MP. reflexivity.
Qed.
Lemma sv7_not_id3 : forall h audio tail, takeN 3 ((head7_bytes h ++ audio) ++ tail) <> $"ID3".
Proof. intros. unfold head7_bytes. rewrite <- !app_assoc. rewrite takeN_app_le by (vm_compute; discriminate). vm_compute. discriminate. Qed.
(** Everything but the time *)
Definition fields7 (h : head7) (p : sv7_props) : Prop :=
  s7_channels p = 2 /\ s7_frames p = d_frames h /\ s7_is p = d_is h /\ s7_ms p = d_ms h /\ s7_band p = d_band h /\ s7_profile p = nth (N.to_nat (d_profile h)) profiles PNone /\ s7_link p = nth (N.to_nat (d_link h)) links LVeryLow /\
  s7_rate p = mpc_rate (d_rate h) /\ s7_level p = d_level h /\ s7_gapless p = d_gapless h /\ s7_last p = (if d_gapless h then d_last h else 0) /\ s7_fast p = d_fast h.
Theorem C187_fields : forall inflate log_peak o pre h audio ape v1 v2 v1t, let body := head7_bytes h ++ audio in let sl := seen_len o pre body in let rate := mpc_rate (d_rate h) in
  mo_props o = true -> mpc_tags inflate o pre body ape v1 v2 v1t -> (mo_tags o = true \/ lenN ape <= lenN pre + lenN body + 32) -> 32 <= lenN (body ++ ape) -> head7_ok h -> sl < 2 ^ 45 -> samples7 h <> 0 ->
  exists p, read_as inflate log_peak o pre body ape v1 v2 v1t (P7 p) /\ fields7 h p /\
    (d_frames h = 0 -> s7_duration p = 0 /\ s7_bitrate p = 0) /\
    (d_frames h <> 0 -> (s7_duration p * rate <= d_frames h * 1152000 + 12 /\ d_frames h * 1152000 < (s7_duration p + 1) * rate + 13) /\
       (sl * 8 * rate < 2 ^ 32 * (samples7 h * 1000) -> s7_bitrate p = sl * 8 * rate / (samples7 h * 1000))) /\
    s7_title_gain p = replay_gain (d_title_gain h) /\ s7_album_gain p = replay_gain (d_album_gain h) /\ s7_encoder p = d_low h mod 256.
Proof.
  intros inflate log_peak o pre h audio ape v1 v2 v1t body sl rate MP MT SZ L32 OK SL NZ. assert (RP : 32000 <= rate <= 48000) by (apply rate_pos; apply OK).
  pose proof (sv7_shape log_peak h (audio ++ ape ++ v1) sl OK) as SH. fold rate in SH.
  assert (RS : forall p, sv7_read log_peak sl (dropN 3 (head7_bytes h ++ audio ++ ape ++ v1)) = Ok p -> read_as inflate log_peak o pre body ape v1 v2 v1t (P7 p)).
  { intros p E. apply read_shape; auto. { apply sv7_not_id3. } unfold body. rewrite <- !app_assoc. rewrite sv7_start by auto. fold body. fold sl. rewrite E. reflexivity. }
  destruct (N.eqb_spec (d_frames h) 0) as [F0|F0].
  - eexists. split; [apply RS; exact SH|]. split; [repeat split|]. split; [auto|]. split; [contradiction|]. auto.
  - unfold u64_mul, u64_div in SH. destruct (N.ltb_spec U64_MAX (sl * 8)) as [Y|Y]; [unfold U64_MAX in Y; lia|]. cbn [bind] in SH. assert (SB : sl * 8 * rate <= sl * 8 * 48000) by (apply N.mul_le_mono_l; lia). destruct (N.ltb_spec U64_MAX (sl * 8 * rate)) as [Z|Z]; [unfold U64_MAX in Z; lia|]. cbn [bind] in SH.
    destruct (N.eqb_spec (samples7 h * 1000) 0); [lia|]. cbn [bind] in SH. eexists. split; [apply RS; exact SH|]. split; [repeat split|]. split; [contradiction|]. split; [|auto]. intros _. split; [exact (length7_near h OK F0)|].
    intros BL. cbn [base7 s7_bitrate]. apply N.mod_small. apply N.div_lt_upper_bound; [lia|lia].
Qed.
Theorem C187_gain : forall g, 0 < g <= 6481 -> gain_near g (replay_gain g).
Proof. exact gain_positive. Qed.
(** A negative gain (louder) gives 0, which stands for no gain at all. *)
Theorem C187_negative_gain_refuted : forall g, 2 ^ 15 <= g < 2 ^ 16 -> replay_gain g = 0.
Proof. intros g G. apply gain_negative. lia. Qed.
(** The version of the encoder is taken from the wrong end of the last word. *)
Theorem C187_encoder_refuted : forall inflate log_peak o pre h audio ape v1 v2 v1t p, let body := head7_bytes h ++ audio in
  mo_props o = true -> mpc_tags inflate o pre body ape v1 v2 v1t -> 32 <= lenN (body ++ ape) -> head7_ok h -> d_low h mod 256 <> d_encoder h ->
  read_as inflate log_peak o pre body ape v1 v2 v1t (P7 p) -> s7_encoder p <> d_encoder h.
Proof.
  intros inflate log_peak o pre h audio ape v1 v2 v1t p body MP MT L32 OK NE (f & R & _ & _ & _ & FP) EQ. destruct (mpc_shape inflate log_peak o pre body ape v1 v2 v1t MT L32 (sv7_not_id3 _ _ _)) as (t & _ & S). rewrite S in R. clear S. destruct (_ && _); [discriminate|].
  unfold body in R at 2. rewrite <- !app_assoc in R. rewrite sv7_start in R by auto. rewrite sv7_shape in R by auto.
  assert (E : exists d b, P7 p = P7 (base7 log_peak h d b)).
  { destruct (d_frames h =? 0). { injection R as <-. rewrite <- FP. cbn [mc_props]. do 2 eexists. reflexivity. } destruct (u64_mul _ 8) as [x| |]; try discriminate. cbn [bind] in R. destruct (u64_mul x _) as [y| |]; try discriminate. cbn [bind] in R. destruct (u64_div y _) as [z| |]; try discriminate. injection R as <-. rewrite <- FP. cbn [mc_props]. do 2 eexists. reflexivity. }
  destruct E as (d & b & E). injection E as ->. cbn in EQ. contradiction.
Qed.
(** The duration counts the samples that are not heard. *)
Theorem C187_duration_refuted : forall inflate log_peak o pre h audio ape v1 v2 v1t t, let body := head7_bytes h ++ audio in
  mo_props o = true -> mpc_tags inflate o pre body ape v1 v2 v1t -> (mo_tags o = true \/ lenN ape <= lenN pre + lenN body + 32) -> 32 <= lenN (body ++ ape) -> head7_ok h -> seen_len o pre body < 2 ^ 45 -> d_frames h <> 0 -> d_gapless h = false ->
  nearest t (samples7 h * 1000) (mpc_rate (d_rate h)) -> exists p, read_as inflate log_peak o pre body ape v1 v2 v1t (P7 p) /\ t + 9 <= s7_duration p.
Proof.
  intros inflate log_peak o pre h audio ape v1 v2 v1t t body MP MT SZ L32 OK SL NZ NG [T _]. destruct (C187_fields inflate log_peak o pre h audio ape v1 v2 v1t) as (p & R & _ & _ & F & _); auto. { unfold samples7. rewrite NG. lia. }
  exists p. split; [exact R|]. destruct (F NZ) as [[_ D] _]. assert (RP := rate_pos (d_rate h) ltac:(apply OK)). unfold samples7 in T. rewrite NG in T. set (r := mpc_rate (d_rate h)) in *. set (d := s7_duration p) in *. clearbody r d.
  destruct (N.le_gt_cases (t + 9) d) as [X|X]; [exact X|]. exfalso. assert ((d + 1) * r <= (t + 9) * r) by (apply N.mul_le_mono_r; lia). lia.
Qed.

(** ** Versions 4 to 6 *)
Lemma head6_len : forall h, head6_ok h -> lenN (head6_bytes h) = 32.
Proof. intros h (_ & _ & _ & _ & _ & L). unfold head6_bytes. rewrite !lenN_app, !le_enc_len, L. reflexivity. Qed.
Lemma head6_start : forall h r a b c, head6_ok h -> takeN 3 (head6_bytes h ++ r) = [a; b; c] -> 4 <= (a + b * 256 + c * 65536) / 2048 mod 1024 <= 6.
Proof.
  intros h r a b c (RA & VE & BA & BL & _ & _) E. assert (B1 := bit1_lt (b_is h)). assert (B2 := bit1_lt (b_ms h)). unfold head6_bytes in E. set (w := b_rate h * 2 ^ 23 + bit1 (b_is h) * 2 ^ 22 + bit1 (b_ms h) * 2 ^ 21 + b_version h * 2 ^ 11 + b_band h * 2 ^ 6 + b_block h) in *.
  cbn [le_enc app] in E. change (takeN 3 (?x :: ?y :: ?z :: _)) with [x; y; z] in E. injection E as <- <- <-.
  assert (V : w / 2048 mod 1024 = b_version h). { replace w with (b_band h * 64 + b_block h + ((b_rate h * 4 + bit1 (b_is h) * 2 + bit1 (b_ms h)) * 1024 + b_version h) * 2048) by (unfold w; lia). rewrite N.div_add by discriminate. rewrite N.div_small by lia. rewrite N.add_0_l, N.add_comm, N.mod_add by discriminate. apply N.mod_small. lia. }
  rewrite <- V in VE. clearbody w. clear - VE. assert (X : (w mod 256 + w / 256 mod 256 * 256 + w / 256 / 256 mod 256 * 65536) = w mod 16777216) by lia. rewrite X. assert (Y : w mod 16777216 / 2048 mod 1024 = w / 2048 mod 1024) by lia. rewrite Y. exact VE.
Qed.
Lemma head6_not : forall h r, head6_ok h -> takeN 3 (head6_bytes h ++ r) <> $"ID3" /\ takeN 3 (head6_bytes h ++ r) <> $"MP+" /\ takeN 3 (head6_bytes h ++ r) <> $"MPC".
Proof. intros h r OK. repeat split; intros E; apply (head6_start h r _ _ _ OK) in E; vm_compute in E; destruct E as [E1 E2]; try (now apply E2); now apply E1. Qed.
Lemma sv6_start : forall log_peak o sl h r, mo_props o = true -> head6_ok h -> mpc_stream log_peak o sl (head6_bytes h ++ r) = let? p := sv6_read (mo_strict o) sl (head6_bytes h ++ r) in Ok (P6 p).
Proof.
  intros log_peak o sl h r MP OK. destruct (head6_not h r OK) as (_ & N1 & N2). unfold mpc_stream. destruct (read_exact 4 (head6_bytes h ++ r)) as [[m t]|] eqn:E.
  2:{ exfalso. unfold read_exact in E. destruct (N.leb_spec 4 (lenN (head6_bytes h ++ r))); [discriminate|]. rewrite lenN_app, head6_len in H by auto. lia. }
  cbn [io bind]. rewrite MP. apply read_exact_spec in E as [E L]. rewrite E in N1, N2. rewrite takeN_app_le in N1, N2 by lia.
  rewrite (proj2 (list_eqb_neq _ _) N1). replace (list_eqb m ($"MPCK")) with false; [reflexivity|]. symmetry. apply list_eqb_neq. intros ->. now apply N2.
Qed.
Definition fields6 (h : head6) (p : sv6_props) : Prop := s6_channels p = 2 /\ s6_rate p = 44100 /\ s6_ms p = b_ms h /\ s6_version p = b_version h /\ s6_band p = b_band h /\ s6_frames p = frames6 h.
Theorem C188_properties : forall inflate log_peak o pre h audio ape v1 v2 v1t, let body := head6_bytes h ++ audio in let sl := seen_len o pre body in
  mo_props o = true -> mpc_tags inflate o pre body ape v1 v2 v1t -> (mo_tags o = true \/ lenN ape <= lenN pre + lenN body + 32) -> head6_ok h -> (mo_strict o = true -> plain6 h) ->
  exists p, read_as inflate log_peak o pre body ape v1 v2 v1t (P6 p) /\ fields6 h p /\
    (frames6 h = 0 -> s6_duration p = 0) /\
    (frames6 h <> 0 -> nearest (s6_duration p) (samples6 h * 1000) 44100 /\
       (let q := 1152 * (1152 * frames6 h - 576) in sl < 2 ^ 40 -> sl * 352800 < U32_MAX * q -> s6_bitrate p * q <= sl * 352800 + 2 ^ 10 /\ sl * 352800 < (s6_bitrate p + 1) * q + 2 ^ 10)).
Proof.
  intros inflate log_peak o pre h audio ape v1 v2 v1t body sl MP MT SZ OK PL. assert (LB : 32 <= lenN body) by (unfold body; rewrite lenN_app, head6_len by auto; lia). pose proof (sv6_shape (mo_strict o) h (audio ++ ape ++ v1) sl OK PL) as SH.
  assert (RS : forall p, sv6_read (mo_strict o) sl (head6_bytes h ++ audio ++ ape ++ v1) = Ok p -> read_as inflate log_peak o pre body ape v1 v2 v1t (P6 p)).
  { intros p E. apply read_shape; auto. { rewrite lenN_app. lia. } { unfold body. rewrite <- app_assoc. now apply head6_not. } unfold body. rewrite <- !app_assoc. rewrite sv6_start by auto. fold body. fold sl. rewrite E. reflexivity. }
  destruct (N.eqb_spec (frames6 h) 0) as [F0|F0].
  - eexists. split; [apply RS; exact SH|]. split; [unfold fields6; rewrite F0; repeat split|]. split; [auto|contradiction].
  - assert (FB : frames6 h < 2 ^ 32). { destruct OK as (_ & _ & _ & _ & FR & _). unfold frames6. revert FR. destruct (b_version h =? 4), (b_version h =? 6); lia. }
    unfold u64_div_round in SH. pose proof (C37_div_round U64_MAX (samples6 h * 1000) 44100) as D. destruct (div_round _ _ _) as [d| |]; [|contradiction|exfalso; destruct D as [D|D]; [discriminate|]; change (44100 / 2) with 22050 in D; unfold samples6, U64_MAX in D; lia]. cbn [bind] in SH.
    eexists. split; [apply RS; exact SH|]. split; [repeat split|]. split; [contradiction|]. intros _. split; [apply D|]. cbv zeta. intros S1 S2. cbn [s6_bitrate].
    apply rate6_near; auto; [unfold sl, seen_len; destruct (mo_tags o); lia|]. replace (sl * 8 * 44100) with (sl * 352800) by lia. exact S2.
Qed.
(** The bit rate is divided by the length of a frame, 1152, in place of 1000: an eighth of it is missing. *)
Theorem C188_bitrate_refuted : forall inflate log_peak o pre h audio ape v1 v2 v1t, let body := head6_bytes h ++ audio in let sl := lenN body in
  mo_props o = true -> mo_tags o = true -> mpc_tags inflate o pre body ape v1 v2 v1t -> head6_ok h -> (mo_strict o = true -> plain6 h) -> 20 <= frames6 h -> sl < 2 ^ 40 -> sl * 352800 < U32_MAX * (1152 * (1152 * frames6 h - 576)) ->
  exists p, read_as inflate log_peak o pre body ape v1 v2 v1t (P6 p) /\ 8 * s6_bitrate p * (samples6 h * 1000) <= 7 * (sl * 8 * 44100) + 2 ^ 13.
Proof.
  intros inflate log_peak o pre h audio ape v1 v2 v1t body sl MP TG MT OK PL F20 S1 S2. destruct (C188_properties inflate log_peak o pre h audio ape v1 v2 v1t) as (p & R & _ & _ & F); auto. exists p. split; [exact R|].
  destruct (F ltac:(lia)) as [_ B]. cbv zeta in B. assert (SE : seen_len o pre (head6_bytes h ++ audio) = sl) by (unfold seen_len; now rewrite TG). rewrite SE in B. destruct (B S1 S2) as [B1 _].
  assert (Q : 8 * (samples6 h * 1000) <= 7 * (1152 * (1152 * frames6 h - 576))) by (unfold samples6; lia). set (q := 1152 * (1152 * frames6 h - 576)) in *. set (z := samples6 h * 1000) in *. set (b := s6_bitrate p) in *. clearbody q z b.
  assert (b * (8 * z) <= b * (7 * q)) by (now apply N.mul_le_mono_l). lia.
Qed.

(** ** Totality *)
Theorem C189_total_partial : forall inflate log_peak o data, (forall b c, inflate b = Some c -> lenN c <= lenN b) -> bytes_ok data -> lenN data < 2 ^ 45 ->
  (mo_props o = true -> forall p, (takeN 4 (dropN p data) = $"MPCK" -> sane8 (dropN (p + 4) data)) /\ (takeN 3 (dropN p data) = $"MP+" -> ~ lone_frame (dropN p data))) ->
  mpc_read inflate log_peak o data <> Panic.
Proof. exact mpc_np. Qed.
Theorem C189_lone_frame_refuted : forall inflate log_peak o pre h audio ape v1 v2 v1t, let body := head7_bytes h ++ audio in
  mo_props o = true -> mpc_tags inflate o pre body ape v1 v2 v1t -> (mo_tags o = true \/ lenN ape <= lenN pre + lenN body + 32) -> 32 <= lenN (body ++ ape) -> head7_ok h -> d_frames h = 1 -> d_gapless h = true -> d_last h = 0 ->
  mpc_read inflate log_peak o (pre ++ body ++ ape ++ v1) = Panic.
Proof.
  intros inflate log_peak o pre h audio ape v1 v2 v1t body MP MT SZ L32 OK F1 GA LA. destruct (mpc_shape inflate log_peak o pre body ape v1 v2 v1t MT L32 (sv7_not_id3 _ _ _)) as (t & _ & S). rewrite S. clear S.
  replace (negb (mo_tags o) && _) with false. 2:{ symmetry. destruct SZ as [T|T]; [now rewrite T|]. destruct (N.ltb_spec (lenN pre + lenN body + 32) (lenN ape)); [lia|]. apply andb_false_r. }
  unfold body at 2. rewrite <- !app_assoc. rewrite sv7_start by auto. rewrite sv7_shape by auto. rewrite F1. change (1 =? 0) with false. cbv iota. assert (Z : samples7 h = 0) by (unfold samples7; rewrite GA, F1, LA; reflexivity). rewrite Z.
  unfold u64_mul. destruct (U64_MAX <? seen_len o pre body * 8); [reflexivity|]. cbn [bind]. destruct (U64_MAX <? _); reflexivity.
Qed.

(** ** Tags *)
Theorem C190_tags : forall inflate log_peak o pre body ape v1 v2 v1t, mpc_tags inflate o pre body ape v1 v2 v1t -> 32 <= lenN (body ++ ape) -> takeN 3 (body ++ ape ++ v1) <> $"ID3" -> (mo_tags o = true \/ lenN ape <= lenN pre + lenN body + 32) ->
  match mpc_read inflate log_peak o (pre ++ body ++ ape ++ v1) with
  | Ok f => mc_id3v2 f = v2 /\ mc_id3v1 f = v1t /\ ape_of o ape (mc_ape f)
  | _ => mo_props o = true
  end.
Proof.
  intros inflate log_peak o pre body ape v1 v2 v1t MT L32 NI SZ. destruct (mpc_shape inflate log_peak o pre body ape v1 v2 v1t MT L32 NI) as (t & A & S). rewrite S. clear S.
  replace (negb (mo_tags o) && _) with false. 2:{ symmetry. destruct SZ as [T|T]; [now rewrite T|]. destruct (N.ltb_spec (lenN pre + lenN body + 32) (lenN ape)); [lia|]. apply andb_false_r. }
  unfold mpc_stream. destruct (read_exact 4 (body ++ ape ++ v1)) as [[m r]|] eqn:E.
  2:{ exfalso. unfold read_exact in E. destruct (N.leb_spec 4 (lenN (body ++ ape ++ v1))); [discriminate|]. rewrite !lenN_app in *. lia. }
  cbn [io bind]. destruct (mo_props o); cbn [bind mc_id3v2 mc_id3v1 mc_ape]; [|repeat split; exact A]. destruct (if list_eqb m _ then _ else _); cbn [bind mc_id3v2 mc_id3v1 mc_ape]; try reflexivity. repeat split. exact A.
Qed.
(** Without reading tags, an APE tag longer than the audio by more than 32 bytes is an error. *)
Theorem C190_untagged_refuted : forall inflate log_peak o pre body ape v1 v2 v1t, mpc_tags inflate o pre body ape v1 v2 v1t -> 32 <= lenN (body ++ ape) -> takeN 3 (body ++ ape ++ v1) <> $"ID3" -> mo_tags o = false -> lenN pre + lenN body + 32 < lenN ape ->
  mpc_read inflate log_peak o (pre ++ body ++ ape ++ v1) = Err CSize.
Proof.
  intros inflate log_peak o pre body ape v1 v2 v1t MT L32 NI TG LA. destruct (mpc_shape inflate log_peak o pre body ape v1 v2 v1t MT L32 NI) as (t & A & S). rewrite S, TG. cbn [negb andb]. destruct (N.ltb_spec (lenN pre + lenN body + 32) (lenN ape)); [reflexivity|lia].
Qed.
(** The version of the stream is always said to be 8. *)
Theorem C190_version_refuted : forall inflate log_peak o data f, mpc_read inflate log_peak o data = Ok f -> mc_version f = Sv8.
Proof.
  intros inflate log_peak o data f H. unfold mpc_read in H.
  repeat match type of H with
  | bind ?y _ = _ => destruct y; cbn [bind] in H; try discriminate
  | (let (_, _) := ?x in _) = _ => destruct x
  | match ?x with _ => _ end = _ => destruct x; try discriminate
  end.
  all: now injection H as <-.
Qed.

(** ** Examples *)
Definition ex_opts (strict tags : bool) : mopts := mkMO (mkFO (if strict then Strict else Relaxed) true false) tags true 1024.
Definition no_inflate (_ : bytes) : option bytes := None.
Definition same_peak (p : N) : N := p.
Definition ex_h8 (samples : N) (n : nat) : head8 := mkH8 0x12345678 8 samples n 4100 2 0 27 2 true 3.
Definition ex_g8 : gain8 := mkG8 1 0x1000 0x2000 0x3000 0x4000.
Definition ex_e8 : enc8 := mkE8 80 true 1 30 1.
Definition ex_packets (samples : N) (n : nat) : list (nat * packet) := [(1%nat, KHead (ex_h8 samples n) []); (1%nat, KGain ex_g8 []); (2%nat, KEnc ex_e8 [5]); (2%nat, KOther ($"AP") (repeat 9 1000))].
Ltac ev := repeat split; vm_compute; try reflexivity; try discriminate; try lia.
Example ex_sv8 : sv8_ok (ex_packets 92300 3) 1 [] /\ the_head (ex_packets 92300 3) = Some (ex_h8 92300 3) /\ the_gain (ex_packets 92300 3) = Some ex_g8 /\ the_enc (ex_packets 92300 3) = Some ex_e8 /\ head8_ok (ex_h8 92300 3).
Proof.
  assert (H : head8_ok (ex_h8 92300 3)) by ev.
  refine (conj (conj _ _) (conj eq_refl (conj eq_refl (conj eq_refl H)))); [|ev].
  unfold ex_packets. repeat apply Forall_cons; try apply Forall_nil; cbn [packet_ok]; split; try (solve [ev]).
  refine (conj _ (conj eq_refl _)). { repeat constructor; vm_compute; discriminate. } repeat split; vm_compute; discriminate.
Qed.
Example C186_example : mpc_read no_inflate same_peak (ex_opts true true) (sv8_bytes (ex_packets 92300 3) 1 [] []) =
  Ok (mkMC Sv8 None None None (P8 (mk8 2000 4 (mkSH 0x12345678 8 92300 4100 44100 27 2 true 64) (mkRG 1 0x1000 0x2000 0x3000 0x4000) (Some (mkEI 80 true 1 30 1))))).
Proof. vm_compute. reflexivity. Qed.
Example C186_example_required : exists e, mpc_read no_inflate same_peak (ex_opts true true) (sv8_bytes [(1%nat, KGain ex_g8 []); (1%nat, KOther ($"AP") (repeat 9 60))] 1 [] []) = Err e.
Proof. vm_compute. eauto. Qed.
Definition ex_h7 (frames : N) (gapless : bool) (last low : N) : head7 := mkH7 0 frames false true 27 10 0 0 30000 20000 100 21000 0xFF00 gapless last true 0 115 low.
Example ex_sv7 : head7_ok (ex_h7 100 true 1152 0) /\ head7_ok (ex_h7 1 true 0 0) /\ head7_ok (ex_h7 100 false 0 77).
Proof. ev. Qed.
(** 115200 samples, 1000 bytes after the header; the gain of the title is 1.00 dB, that of the album -2.56 dB; the encoder's version is 115. *)
Example C187_example : match mpc_read no_inflate same_peak (ex_opts true true) (head7_bytes (ex_h7 100 true 1152 0) ++ repeat 3 1000) with
  | Ok f => match mc_props f with P7 p => s7_duration p = 2612 /\ s7_bitrate p = 3 /\ s7_frames p = 100 /\ s7_profile p = PStandard /\ s7_encoder p = 0 /\ s7_album_gain p = 0 | _ => False end
  | _ => False end.
Proof. vm_compute. repeat split. Qed.
Example C187_example_gain : gain_near 100 (replay_gain 100).
Proof. apply C187_gain. lia. Qed.
Example C187_example_duration : samples7 (ex_h7 100 false 0 77) = 114719 /\ nearest 2601 (114719 * 1000) 44100 /\ match mpc_read no_inflate same_peak (ex_opts true true) (head7_bytes (ex_h7 100 false 0 77) ++ repeat 3 160) with
  | Ok f => match mc_props f with P7 p => s7_duration p = 2612 /\ s7_encoder p = 77 | _ => False end | _ => False end.
Proof. vm_compute. repeat split; discriminate. Qed.
Definition ex_h6 (version frames : N) : head6 := mkH6 0 false true version 20 1 frames 0 (repeat 1 24).
Example ex_sv6 : head6_ok (ex_h6 6 100) /\ head6_ok (ex_h6 5 101) /\ head6_ok (ex_h6 4 101) /\ plain6 (ex_h6 6 100).
Proof. ev. Qed.
(** 10000 bytes, which make 30.754 kbit/s *)
Example C188_example : match mpc_read no_inflate same_peak (ex_opts true true) (head6_bytes (ex_h6 6 100) ++ repeat 3 (N.to_nat 9968)) with
  | Ok f => mc_props f = P6 (mk6 2601 2 44100 26 true 6 20 100) | _ => False end /\ nearest 2601 (samples6 (ex_h6 6 100) * 1000) 44100 /\ 10000 * 8 * 44100 / (samples6 (ex_h6 6 100) * 1000) = 30.
Proof. vm_compute. repeat split; discriminate. Qed.
Example C188_example_old : match mpc_read no_inflate same_peak (ex_opts true true) (head6_bytes (ex_h6 4 101) ++ repeat 3 10) with
  | Ok f => match mc_props f with P6 p => s6_duration p = 2601 /\ s6_frames p = 100 /\ s6_version p = 4 | _ => False end | _ => False end.
Proof. vm_compute. repeat split. Qed.
Example C189_example_lone : mpc_read no_inflate same_peak (ex_opts true true) (head7_bytes (ex_h7 1 true 0 0) ++ repeat 3 10) = Panic.
Proof. vm_compute. reflexivity. Qed.
(** A number of samples that overflows once it is multiplied by 1000, in a file of a few bytes *)
Theorem C189_sv8_refuted : exists data, bytes_ok data /\ forall strict tags, mpc_read no_inflate same_peak (ex_opts strict tags) data = Panic.
Proof.
  exists (sv8_bytes (ex_packets (2 ^ 61) 9) 1 [] []). split; [|intros [] []; vm_compute; reflexivity].
  apply Forall_forall. intros x X. assert (H : forallb (fun b => b <? 256) (sv8_bytes (ex_packets (2 ^ 61) 9) 1 [] []) = true) by (vm_compute; reflexivity). rewrite forallb_forall in H. specialize (H x X). now apply N.ltb_lt in H.
Qed.
Definition ex_id3v2 : bytes := $"ID3" ++ [4; 0; 0; 0; 0; 0; 30] ++ repeat 0 30.
Definition ex_ape (n : N) : bytes := let b := $"APETAGEX" ++ le_enc 4 2000 ++ le_enc 4 (n + 32) ++ le_enc 4 0 in b ++ le_enc 4 0xA0000000 ++ le_enc 8 0 ++ repeat 0 (N.to_nat n) ++ b ++ le_enc 4 0x80000000 ++ le_enc 8 0.
Definition ex_id3v1 : bytes := $"TAG" ++ $"Title" ++ repeat 0 85 ++ $"2000" ++ repeat 0 30 ++ [255].
Example C190_example : match mpc_read no_inflate same_peak (ex_opts true true) (ex_id3v2 ++ (head6_bytes (ex_h6 6 100) ++ repeat 3 968) ++ ex_ape 0 ++ ex_id3v1) with
  | Ok f => mc_version f = Sv8 /\ (exists t, mc_id3v2 f = Some t) /\ (exists t, mc_ape f = Some t) /\ (exists t, mc_id3v1 f = Some t) /\ (exists p, mc_props f = P6 p) | _ => False end.
Proof. vm_compute. repeat split; eauto. Qed.
Example C190_example_untagged : mpc_read no_inflate same_peak (ex_opts true false) ((head6_bytes (ex_h6 6 100) ++ repeat 3 10) ++ ex_ape 40) = Err CSize.
Proof. vm_compute. reflexivity. Qed.
(** The bit rate of a file whose tags are not read counts its ID3v2 tag. *)
Theorem C190_bitrate_refuted : exists pre body f g p q, mpc_read no_inflate same_peak (ex_opts true true) (pre ++ body) = Ok f /\ mpc_read no_inflate same_peak (ex_opts true false) (pre ++ body) = Ok g /\ mc_props f = P6 p /\ mc_props g = P6 q /\ s6_bitrate p < s6_bitrate q.
Proof. exists ex_id3v2, (head6_bytes (ex_h6 6 1)). do 4 eexists. refine (conj _ (conj _ (conj _ (conj _ _)))); vm_compute; reflexivity. Qed.
(** Fewer than 32 bytes before the tags at the end: not read *)
Theorem C190_short_refuted : exists body, lenN body = 28 /\ (exists p, mpc_stream same_peak (ex_opts true true) 28 body = Ok p) /\ mpc_read no_inflate same_peak (ex_opts true true) (body ++ ex_id3v1) = Err CIo.
Proof. exists (head7_bytes (ex_h7 100 true 1152 0)). split; [reflexivity|]. vm_compute. eauto. Qed.

Print Assumptions C186_properties.
Print Assumptions C186_required.
Print Assumptions C187_fields.
Print Assumptions C187_gain.
Print Assumptions C187_negative_gain_refuted.
Print Assumptions C187_encoder_refuted.
Print Assumptions C187_duration_refuted.
Print Assumptions C188_properties.
Print Assumptions C188_bitrate_refuted.
Print Assumptions C189_total_partial.
Print Assumptions C189_lone_frame_refuted.
Print Assumptions C189_sv8_refuted.
Print Assumptions C190_tags.
Print Assumptions C190_untagged_refuted.
Print Assumptions C190_version_refuted.
Print Assumptions C190_bitrate_refuted.
Print Assumptions C190_short_refuted.
