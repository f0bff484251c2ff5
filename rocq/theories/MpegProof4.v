(** Whole files and their properties. *)
From Verif Require Import BaseLemmas StrLemmas Id3v2HeaderProof Id3v2HeaderThm ApeThm2 ApeProof2 TextProof.
From Verif Require Import Id3v1Model ApeModel FrameReadModel MathModel Id3v2HeaderModel.
From Verif Require Export MpegProof3.

(** A file: zeros, ID3v2 tags, frames, APE tag, ID3v1 tag. *)
Record mfile := mkFile { mx_zeros : nat; mx_foot : bytes; mx_tags : list vtag; mx_frames : list (fields * bytes); mx_ape : bytes; mx_v1 : bytes }.
Definition before (m : mfile) : bytes := repeat 0 (mx_zeros m) ++ front_of (mx_foot m) (mx_tags m).
Definition through (m : mfile) : bytes := before m ++ audio_of (mx_frames m).
Definition file_bytes (m : mfile) : bytes := through m ++ mx_ape m ++ mx_v1 m.
Record mfile_ok (inflate : bytes -> option bytes) (o : mopts) (m : mfile) : Prop := {
  ok_tags : Forall (vtag_ok inflate (mo_frames o)) (mx_tags m);
  ok_foot : foot_ok (mx_foot m) (mx_tags m);
  ok_stream : stream_ok (mx_frames m);
  ok_regular : Forall (fun x => regular (fst x)) (mx_frames m);
  ok_ape : old_tag (through m) (mx_ape m);
  ok_v1 : file_end (file_bytes m) (mx_v1 m);
  ok_read : mx_ape m <> [] -> mo_tags o = true }.

Lemma zeros_skip : forall n k b r, b <> 0 -> skip_zeros (repeat 0 n ++ b :: r) k = Some (k + N.of_nat n).
Proof.
  induction n as [|n IH]; intros k b r B; cbn [repeat app skip_zeros].
  - destruct (N.eqb_spec b 0); [contradiction|]. f_equal. lia.
  - change (0 =? 0) with true. cbv iota. rewrite IH by auto. f_equal. lia.
Qed.
Lemma no_id3_zeros : forall n, no_id3 (repeat 0 n).
Proof.
  intros n p q E. assert (X : In 73 (repeat 0 n)). { rewrite E. apply in_or_app. right. left. reflexivity. } apply repeat_spec in X. discriminate.
Qed.
Lemma front_len : forall foot ts, (length ts <= length (front_of foot ts))%nat.
Proof.
  intros foot [|t ts]; cbn [front_of length]; [lia|]. rewrite !app_length.
  assert (X : (length ts <= length (flat_map vtag_bytes ts))%nat).
  { induction ts as [|u ts IH]; cbn [flat_map length]; [lia|]. rewrite app_length. pose proof (vtag_len u). unfold lenN in *. lia. }
  pose proof (vtag_len t). unfold lenN in *. lia.
Qed.
Lemma first_byte : forall foot ts x frames rest, valid (fst x) -> exists b r, b <> 0 /\ front_of foot ts ++ audio_of (x :: frames) ++ rest = b :: r.
Proof.
  intros foot [|t ts] x frames rest V.
  - destruct (word_bytes (fst x) V) as (b & c & d & E & _). cbn [front_of]. rewrite audio_cons. unfold MpegSpec.frame_bytes. rewrite E. cbn [app]. eexists 255, _. split; [discriminate|reflexivity].
  - cbn [front_of]. unfold vtag_bytes at 1, hdr_bytes. cbn [app]. eexists _, _. split; [|reflexivity]. discriminate.
Qed.
Lemma frames_len : forall inflate o m, mfile_ok inflate o m -> 48 <= lenN (audio_of (mx_frames m)).
Proof.
  intros inflate o m [_ _ S R _ _ _]. destruct (mx_frames m) as [|x [|y l]]; try contradiction. unfold stream_ok in S. rewrite !audio_cons, !lenN_app.
  apply Forall_cons_iff in S as [[S1 _] S]. apply Forall_cons_iff in S as [[S2 _] _]. apply Forall_cons_iff in R as [R1 R]. apply Forall_cons_iff in R as [R2 _].
  rewrite !frame_len_ok by auto. pose proof (lengths_mod (fst x) (proj1 S1)). pose proof (lengths_mod (fst y) (proj1 S2)). lia.
Qed.

Lemma read_main : forall inflate o m x l v1t, mfile_ok inflate o m -> mx_frames m = x :: l -> v1_of o (mx_v1 m) v1t ->
  let data := file_bytes m in let start := lenN (before m) in
  exists ape, (mx_ape m = [] -> ape = None) /\
    (forall t, at_items t <> [] -> Forall item_ok (at_items t) -> NoDup (map (fun i => lower (ai_key i)) (at_items t)) -> ape_dump t = Ok (mx_ape m) ->
       ape = Some (mkApeTag false (filter (shown (fo_cover (mo_frames o))) (at_items t)))) /\
    mpeg_read inflate o data =
      let v2 := if mo_tags o then merged (mx_tags m) else None in
      if mo_props o then
        match read_exact 32 (dropN (start + xing_offset (fst x)) data) with
        | None => Err MIo
        | Some (b, _) =>
            let? vbr := vbr_read b in
            let? p := read_properties data (header_of (fst x)) start (lenN (through m)) vbr (lenN data) in
            Ok (mkMF v2 v1t ape p)
        end
      else Ok (mkMF v2 v1t ape mprops_default).
Proof.
  intros inflate o m x l v1t OK EF V1 data start. pose proof (frames_len inflate o m OK) as FL. destruct OK as [OT OF OS OR OA OV OD].
  destruct (tail_spec o (through m) (mx_ape m) (mx_v1 m) v1t None OV OA OD) as (ape & TL & A1 & A2). { unfold through. rewrite !lenN_app. lia. } { auto. }
  exists ape. split; [auto|]. split; [auto|].
  rewrite EF in OS, OR. destruct l as [|y l]; [contradiction|]. unfold stream_ok in OS.
  apply Forall_cons_iff in OS as [[S1 _] OS]. apply Forall_cons_iff in OS as [[S2 K2] _]. apply Forall_cons_iff in OR as [R1 _].
  assert (DD : data = repeat 0 (mx_zeros m) ++ front_of (mx_foot m) (mx_tags m) ++ audio_of (x :: y :: l) ++ mx_ape m ++ mx_v1 m).
  { unfold data, file_bytes, through, before. rewrite EF. now rewrite <- !app_assoc. }
  unfold mpeg_read. rewrite DD at 1.
  destruct (first_byte (mx_foot m) (mx_tags m) x (y :: l) (mx_ape m ++ mx_v1 m) (proj1 S1)) as (b & r & B & EB). rewrite EB, zeros_skip, N.add_0_l by auto.
  assert (LE : lead inflate (S (length data)) data o None None (N.of_nat (mx_zeros m)) =
    Ok (if mo_tags o then merged (mx_tags m) else None, None, Some (header_of (fst x), start))).
  { pose proof (front_len (mx_foot m) (mx_tags m)) as FN.
    replace (S (length data)) with (length (mx_tags m) + S (length data - length (mx_tags m)))%nat by (rewrite DD, !app_length; lia).
    replace (N.of_nat (mx_zeros m)) with (lenN (repeat 0 (mx_zeros m))) by apply lenN_repeat.
    set (fu := S (length data - length (mx_tags m))). assert (FU : exists k, fu = S k) by (unfold fu; eauto). destruct FU as [k FU]. rewrite FU. rewrite DD.
    rewrite lead_front by auto. rewrite !audio_cons.
    replace (repeat 0 (mx_zeros m) ++ front_of (mx_foot m) (mx_tags m) ++ (MpegSpec.frame_bytes x ++ MpegSpec.frame_bytes y ++ audio_of l) ++ mx_ape m ++ mx_v1 m)
      with (before m ++ MpegSpec.frame_bytes x ++ MpegSpec.frame_bytes y ++ audio_of l ++ mx_ape m ++ mx_v1 m) by (unfold before; now rewrite <- !app_assoc).
    fold (before m). rewrite lead_frames; auto. intros NO. destruct (mo_tags o); auto. destruct (mx_tags m) as [|t ts] eqn:ET; [|discriminate]. left.
    unfold before. rewrite ET. cbn [front_of]. rewrite app_nil_r. apply no_id3_zeros. }
  rewrite LE. cbn [bind]. fold data in TL. unfold file_bytes in TL. fold (file_bytes m) in TL. fold data in TL. rewrite TL. cbn [bind].
  destruct (mo_props o); reflexivity.
Qed.

(** ** The properties *)
Lemma round_ok : forall a b, a < 2 ^ 63 -> 0 < b < 2 ^ 63 -> @round64 mpeg_error a b = Ok ((a + b / 2) / b).
Proof.
  intros a b A B. unfold round64, div_round. rewrite N.shiftr_div_pow2. change (2 ^ 1) with 2. unfold U64_MAX.
  match goal with |- context [?m <? ?s] => destruct (N.ltb_spec m s) end; [lia|]. destruct (N.eqb_spec b 0); [lia|reflexivity].
Qed.
Lemma mul_ok : forall a b, a * b < 2 ^ 64 -> @mul64 mpeg_error a b = Ok (a * b).
Proof. intros a b H. unfold mul64, U64_MAX. match goal with |- context [?m <? ?s] => destruct (N.ltb_spec m s) end; [lia|reflexivity]. Qed.
Definition make (f : fields) (duration overall audio : N) : mprops :=
  mkMP (fl_version f) (fl_layer f) duration overall audio (rate_of f) (match fl_mode f with SingleChannel => 1 | _ => 2 end) (fl_mode f) (mode_ext_of f)
    (fl_copyright f) (fl_original f) (fl_emphasis f).
Lemma samples_range : forall f, 384 <= samples_of f <= 1152.
Proof. intros f. unfold samples_of. destruct (fl_layer f), (fl_version f); lia. Qed.
Lemma vbr_props : forall data f start last v len, valid f -> len < 2 ^ 61 -> 0 < vb_frames v < 2 ^ 32 -> 0 < vb_size v < 2 ^ 32 ->
  let d := (1000 * samples_of f * vb_frames v + rate_of f / 2) / rate_of f in
  0 < d /\ read_properties data (header_of f) start last (Some v) len = Ok (make f d (len * 8 / d mod 2 ^ 32) (vb_size v * 8 / d)).
Proof.
  intros data f start last v len V L F S d. pose proof (rate_pos f V) as R. pose proof (samples_range f) as SR.
  assert (D : 8 <= d).
  { apply N.div_le_lower_bound; [lia|]. nia. }
  split; [lia|]. unfold read_properties. cbn [m_rate m_samples header_of].
  replace (0 <? rate_of f) with true by (symmetry; apply N.ltb_lt; lia). unfold vbr_valid.
  replace (0 <? vb_frames v) with true by (symmetry; apply N.ltb_lt; lia). replace (0 <? vb_size v) with true by (symmetry; apply N.ltb_lt; lia). cbn [andb].
  assert (X : samples_of f * 1000 * vb_frames v < 2 ^ 63). { change (2 ^ 63) with 9223372036854775808. change (2 ^ 32) with 4294967296 in *. nia. }
  rewrite round_ok by (auto; change (2 ^ 63) with 9223372036854775808; lia). cbn [bind].
  replace (samples_of f * 1000) with (1000 * samples_of f) by lia. fold d.
  rewrite mul_ok by lia. cbn [bind]. unfold div64. destruct (N.eqb_spec d 0); [lia|]. cbn [bind]. rewrite mul_ok by lia. cbn [bind].
  unfold u32, make. do 2 f_equal. rewrite N.mod_small. reflexivity.
  apply N.le_lt_trans with (vb_size v * 8 / 8). { apply N.div_le_compat_l. lia. } rewrite N.div_mul by lia. lia.
Qed.
Lemma cbr_props : forall data f start last vbr len pos g, valid f -> valid g -> len < 2 ^ 59 -> pos <= len ->
  match vbr with Some v => vbr_valid v = false | None => True end -> last_frame (S (N.to_nat last)) data (header_of f) last = Ok (Some (pos, header_of g)) -> start <= pos ->
  let n := pos + code_length g - start in
  let d := (n * 8 + bitrate_of f / 2) / bitrate_of f in
  read_properties data (header_of f) start last vbr len = Ok (make f d (if d =? 0 then 0 else (len * 8 / d) mod 2 ^ 32) (bitrate_of f)).
Proof.
  intros data f start last vbr len pos g V W L P NV LF SP n d. pose proof (bitrate_pos f V) as BP. pose proof (lengths_mod g W) as (LG & _).
  assert (BU : bitrate_of f <= 448).
  { destruct V as ((B1 & B2) & _). unfold bitrate_of. assert (X : In (fl_bitrate f) [1;2;3;4;5;6;7;8;9;10;11;12;13;14]) by (cbn [In]; lia).
    cbn [In] in X. repeat destruct X as [<-|X]; try contradiction; destruct (fl_version f), (fl_layer f); vm_compute; discriminate. }
  assert (E : forall c : bool, (if m_bitrate (header_of f) =? 0 then @Ok mpeg_error mprops (make f 0 0 0) else
    let? last := last_frame (S (N.to_nat last)) data (header_of f) last in
    match last with
    | None => Ok (make f 0 0 (if c then m_bitrate (header_of f) else 0))
    | Some (pos, h) =>
        if pos + m_len h <? start then Ok (make f 0 0 (if c then m_bitrate (header_of f) else 0)) else
        let? bits := mul64 (pos + m_len h - start) 8 in
        let? length := round64 bits (m_bitrate (header_of f)) in
        Ok (make f length (if length =? 0 then 0 else u32 (N.min U64_MAX (len * 8) / length)) (m_bitrate (header_of f)))
    end) = Ok (make f d (if d =? 0 then 0 else (len * 8 / d) mod 2 ^ 32) (bitrate_of f))).
  { intros c. cbn [m_bitrate header_of]. destruct (N.eqb_spec (bitrate_of f) 0); [contradiction|]. rewrite LF. cbn [bind m_len header_of].
    destruct (N.ltb_spec (pos + code_length g) start); [lia|]. fold n. rewrite mul_ok by lia. cbn [bind]. rewrite round_ok by lia. cbn [bind]. fold d.
    replace (N.min U64_MAX (len * 8)) with (len * 8) by (unfold U64_MAX; lia). reflexivity. }
  unfold read_properties. destruct vbr as [v|]; [rewrite NV, andb_false_r|].
  - exact (E (match vb_type v with Info => true | _ => false end)).
  - exact (E false).
Qed.
