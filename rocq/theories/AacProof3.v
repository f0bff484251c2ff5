(** Whole AAC files. *)
From Verif Require Import BaseLemmas StrLemmas Id3v2HeaderProof Id3v2HeaderThm ApeThm2 ApeProof2 TextProof MpegProof4 MpegProof5 FrameTotalThm Id3v1Thm.
From Verif Require Import Id3v1Model ApeModel FrameReadModel Id3v2HeaderModel.
From Verif Require Export AacProof2.

(** ** Tags in front *)
Lemma id3_four : forall t rest, exists b r, read_exact 4 (vtag_bytes t ++ rest) = Some (b, r) /\ takeN 3 b = $"ID3".
Proof.
  intros. unfold vtag_bytes, hdr_bytes, read_exact. rewrite <- !app_assoc. match goal with |- context [4 <=? ?n] => replace (4 <=? n) with true end.
  2:{ symmetry. apply N.leb_le. rewrite !lenN_app. change (lenN $"ID3") with 3. change (lenN [tg_major t; tg_minor t; tg_flags t]) with 3. lia. }
  eexists _, _. split; reflexivity.
Qed.
Lemma aac_tag_step : forall inflate fuel pre t rest o v2 sl, mo_tags o = true -> vtag_ok inflate (mo_frames o) t -> lenN (vtag_bytes t) + (if tg_footer t then 10 else 0) <= sl ->
  aac_lead inflate (S fuel) (pre ++ vtag_bytes t ++ rest) o v2 sl (lenN pre) =
  match v2 with
  | Some old => aac_lead inflate fuel (pre ++ vtag_bytes t ++ rest) o (Some (add_frames old (tg_parsed t))) (sl - lenN (tg_content t)) (lenN (pre ++ vtag_bytes t))
  | None => aac_lead inflate fuel (pre ++ vtag_bytes t ++ rest) o (Some (tg_parsed t)) (sl - lenN (tg_content t) - (if tg_footer t then 10 else 0)) (lenN (pre ++ vtag_bytes t) + if tg_footer t then 10 else 0)
  end.
Proof.
  intros inflate fuel pre t rest o v2 sl T OK SL. destruct (vtag_parse inflate (mo_frames o) t rest OK) as [P1 P2]. rewrite vtag_len in SL.
  set (data := pre ++ vtag_bytes t ++ rest). cbn [aac_lead].
  assert (D : dropN (lenN pre) data = vtag_bytes t ++ rest) by (unfold data; now apply dropN_app). rewrite D.
  destruct (id3_four t rest) as (b & r & -> & ->). change (list_eqb ($"ID3") ($"ID3")) with true. cbv iota. rewrite P1. cbn [aac_tag bind]. rewrite T, P2. cbn [aac_tag bind].
  assert (LD : lenN data = lenN (pre ++ vtag_bytes t) + lenN rest) by (unfold data; rewrite !lenN_app; lia).
  assert (HS : h_size (tg_header t) = lenN (tg_content t)) by (symmetry; apply OK). rewrite HS.
  replace (sl <? lenN (tg_content t)) with false by (symmetry; apply N.ltb_ge; lia).
  replace (lenN data - lenN rest) with (lenN (pre ++ vtag_bytes t)) by lia. change (tf_footer (h_flags (tg_header t))) with (tg_footer t).
  destruct v2; [reflexivity|]. destruct (tg_footer t).
  - replace (sl - lenN (tg_content t) <? 10) with false by (symmetry; apply N.ltb_ge; lia). reflexivity.
  - now rewrite N.sub_0_r, N.add_0_r.
Qed.
Definition contents (ts : list vtag) : N := sumN (map (fun t => lenN (tg_content t)) ts).
Lemma contents_cons : forall t ts, contents (t :: ts) = lenN (tg_content t) + contents ts. Proof. reflexivity. Qed.
Lemma tags_len : forall ts, lenN (flat_map vtag_bytes ts) = contents ts + 10 * lenN ts.
Proof. induction ts as [|t ts IH]; [reflexivity|]. cbn [flat_map]. rewrite lenN_app, vtag_len, IH, lenN_cons, contents_cons. lia. Qed.
Lemma aac_more : forall inflate o ts fuel pre rest v2 sl, mo_tags o = true -> Forall (vtag_ok inflate (mo_frames o)) ts -> Forall (fun t => tg_footer t = false) ts -> lenN (flat_map vtag_bytes ts) <= sl ->
  aac_lead inflate (length ts + fuel) (pre ++ flat_map vtag_bytes ts ++ rest) o (Some v2) sl (lenN pre) =
  aac_lead inflate fuel (pre ++ flat_map vtag_bytes ts ++ rest) o (Some (fold_left (fun a t => add_frames a (tg_parsed t)) ts v2)) (sl - contents ts) (lenN (pre ++ flat_map vtag_bytes ts)).
Proof.
  induction ts as [|t ts IH]; intros fuel pre rest v2 sl T F G SL.
  - cbn [length Nat.add flat_map fold_left contents map sumN fold_right]. unfold contents. cbn [map sumN fold_right]. now rewrite app_nil_r, N.sub_0_r.
  - apply Forall_cons_iff in F as [F1 F]. apply Forall_cons_iff in G as [G1 G]. cbn [length Nat.add flat_map] in SL |- *. rewrite lenN_app in SL. rewrite <- app_assoc.
    rewrite aac_tag_step by (auto; rewrite G1; lia). rewrite vtag_len in SL. rewrite !app_assoc. rewrite <- (app_assoc _ _ rest). rewrite IH by (auto; lia). cbn [fold_left]. f_equal. rewrite contents_cons. lia.
Qed.
Lemma aac_front : forall inflate o foot ts fuel pre rest sl, mo_tags o = true -> Forall (vtag_ok inflate (mo_frames o)) ts -> foot_ok foot ts -> lenN (front_of foot ts) <= sl ->
  aac_lead inflate (length ts + fuel) (pre ++ front_of foot ts ++ rest) o None sl (lenN pre) =
  aac_lead inflate fuel (pre ++ front_of foot ts ++ rest) o (merged ts) (sl - contents ts - lenN foot) (lenN (pre ++ front_of foot ts)).
Proof.
  intros inflate o foot [|t ts] fuel pre rest sl T F FO SL.
  - cbn [length Nat.add front_of merged]. cbn in FO. rewrite FO, app_nil_r. unfold contents. cbn [map sumN fold_right]. now rewrite lenN_nil, !N.sub_0_r.
  - apply Forall_cons_iff in F as [F1 F]. destruct FO as [FL G]. cbn [length Nat.add front_of merged] in SL |- *. rewrite !lenN_app in SL. rewrite <- !app_assoc.
    rewrite aac_tag_step by (auto; lia). rewrite <- FL. rewrite vtag_len in SL. replace (lenN (pre ++ vtag_bytes t) + lenN foot) with (lenN (pre ++ vtag_bytes t ++ foot)) by (rewrite !lenN_app; lia).
    replace (pre ++ vtag_bytes t ++ foot ++ flat_map vtag_bytes ts ++ rest) with ((pre ++ vtag_bytes t ++ foot) ++ flat_map vtag_bytes ts ++ rest) by now rewrite <- !app_assoc.
    replace (pre ++ vtag_bytes t ++ foot ++ flat_map vtag_bytes ts) with ((pre ++ vtag_bytes t ++ foot) ++ flat_map vtag_bytes ts) by now rewrite <- !app_assoc.
    rewrite aac_more by (auto; lia). f_equal. rewrite contents_cons. lia.
Qed.

(** ** A file: zeros, ID3v2 tags, junk, frames, anything that is no frame, ID3v1 tag *)
Record afile := mkAFile { ax_zeros : nat; ax_foot : bytes; ax_tags : list vtag; ax_junk : bytes; ax_frames : list (afields * bytes); ax_post : bytes; ax_v1 : bytes }.
Definition ax_before (m : afile) : bytes := repeat 0 (ax_zeros m) ++ front_of (ax_foot m) (ax_tags m).
Definition afile_bytes (m : afile) : bytes := ax_before m ++ ax_junk m ++ astream (ax_frames m) ++ ax_post m ++ ax_v1 m.
Record afile_ok (inflate : bytes -> option bytes) (o : mopts) (m : afile) : Prop := {
  aok_tags : Forall (vtag_ok inflate (mo_frames o)) (ax_tags m);
  aok_foot : foot_ok (ax_foot m) (ax_tags m);
  aok_junk : bytes_ok (ax_junk m) /\ silent (ax_junk m ++ [255]) /\ takeN 3 (ax_junk m) <> $"ID3" /\ (ax_tags m = [] -> hd_error (ax_junk m) <> Some 0);
  aok_stream : astream_ok (ax_frames m);
  aok_end : bytes_ok (ax_post m ++ ax_v1 m) /\ silent (ax_post m ++ ax_v1 m);
  aok_v1 : file_end (afile_bytes m) (ax_v1 m);
  aok_read : mo_tags o = true }.
(** The length that the code takes for that of the stream *)
Definition ax_stream (m : afile) : N :=
  N.of_nat (ax_zeros m) + 10 * lenN (ax_tags m) + lenN (ax_junk m) + lenN (astream (ax_frames m)) + lenN (ax_post m).
Lemma junk_four : forall junk x rest, takeN 3 junk <> $"ID3" -> aframe_ok x -> exists four r, read_exact 4 (junk ++ aframe x ++ rest) = Some (four, r) /\ list_eqb (takeN 3 four) ($"ID3") = false.
Proof.
  intros junk x rest J OX. destruct (aframe_head x OX) as (b & t & E & _). unfold read_exact.
  replace (4 <=? lenN (junk ++ aframe x ++ rest)) with true by (symmetry; apply N.leb_le; rewrite !lenN_app, aframe_len; unfold alength; lia). eexists _, _. split; [reflexivity|].
  apply list_eqb_neq. rewrite E. destruct junk as [|j1 [|j2 [|j3 junk]]]; cbn [app]; try discriminate. exact J.
Qed.
Lemma first_nonzero : forall m inflate o x l, afile_ok inflate o m -> ax_frames m = x :: l -> exists b r, b <> 0 /\ front_of (ax_foot m) (ax_tags m) ++ ax_junk m ++ astream (ax_frames m) ++ ax_post m ++ ax_v1 m = b :: r.
Proof.
  intros m inflate o x l OK EF. destruct OK as [_ OF (_ & _ & _ & OJ) OS _ _ _]. rewrite EF in *. destruct (ax_tags m) as [|t ts]; cbn [front_of app].
  - specialize (OJ eq_refl). destruct (ax_junk m) as [|j junk]; cbn [app].
    + destruct l as [|y l]; [contradiction|]. apply Forall_cons_iff in OS as [[OX _] _]. destruct (aframe_head x OX) as (b & t & E & _). unfold astream. cbn [flat_map]. rewrite E. cbn [app]. eexists 255, _. split; [discriminate|reflexivity].
    + eexists _, _. split; [|reflexivity]. intros ->. now apply OJ.
  - unfold vtag_bytes at 1, hdr_bytes. cbn [app]. eexists _, _. split; [|reflexivity]. discriminate.
Qed.
Lemma lead_all : forall inflate o m x y l, afile_ok inflate o m -> ax_frames m = x :: y :: l ->
  aac_lead inflate (S (length (afile_bytes m))) (afile_bytes m) o None (lenN (afile_bytes m)) (N.of_nat (ax_zeros m)) =
  Ok (merged (ax_tags m), Some (header_of_frame (fst x) (alength x), lenN (ax_before m ++ ax_junk m ++ aframe x)), ax_stream m + lenN (ax_v1 m)).
Proof.
  intros inflate o m x y l OK EF. destruct OK as [OT OF (OJ & SJ & IJ & ZJ) OS (OP & SP) OV OR]. rewrite EF in OS. unfold astream_ok in OS.
  assert (OS' := OS). apply Forall_cons_iff in OS' as [[OX _] OS']. apply Forall_cons_iff in OS' as [[OY KY] OL].
  set (data := afile_bytes m).
  assert (DD : data = repeat 0 (ax_zeros m) ++ front_of (ax_foot m) (ax_tags m) ++ ax_junk m ++ aframe x ++ aframe y ++ (astream l ++ ax_post m ++ ax_v1 m)).
  { unfold data, afile_bytes, ax_before. rewrite EF. unfold astream. cbn [flat_map]. now rewrite <- !app_assoc. }
  pose proof (front_len (ax_foot m) (ax_tags m)) as FN.
  replace (S (length data)) with (length (ax_tags m) + S (length data - length (ax_tags m)))%nat by (rewrite DD, !app_length; lia).
  replace (N.of_nat (ax_zeros m)) with (lenN (repeat 0 (ax_zeros m))) at 1 by apply lenN_repeat.
  set (fu := S (length data - length (ax_tags m))). assert (FU : exists k, fu = S k) by (unfold fu; eauto). destruct FU as [k FU]. rewrite FU. clear fu FU.
  assert (LD : lenN data = N.of_nat (ax_zeros m) + lenN (front_of (ax_foot m) (ax_tags m)) + lenN (ax_junk m) + lenN (astream (x :: y :: l)) + lenN (ax_post m) + lenN (ax_v1 m)).
  { unfold data, afile_bytes, ax_before. rewrite EF, !lenN_app, lenN_repeat. lia. }
  assert (SL : lenN data - contents (ax_tags m) - lenN (ax_foot m) = ax_stream m + lenN (ax_v1 m)).
  { rewrite LD. unfold ax_stream. rewrite EF. destruct (ax_tags m) as [|t ts]; cbn [front_of foot_ok] in *; [rewrite OF; unfold contents; cbn [map sumN fold_right]; rewrite !lenN_nil; lia|].
    rewrite !lenN_app, vtag_len, tags_len, lenN_cons, contents_cons. lia. }
  rewrite DD at 1. rewrite aac_front by (auto; lia). rewrite SL. rewrite <- DD. cbn [aac_lead]. rewrite <- lenN_repeat with (x := 0) in LD || idtac.
  assert (D1 : dropN (lenN (repeat 0 (ax_zeros m) ++ front_of (ax_foot m) (ax_tags m))) data = ax_junk m ++ aframe x ++ aframe y ++ (astream l ++ ax_post m ++ ax_v1 m)).
  { rewrite DD, app_assoc. now apply dropN_app. }
  rewrite D1. destruct (junk_four (ax_junk m) x (aframe y ++ astream l ++ ax_post m ++ ax_v1 m) IJ OX) as (four & r & -> & ->). unfold find_next.
  rewrite DD, app_assoc. fold (ax_before m). rewrite find_one; auto.
  apply Forall_app. split; auto. now apply (stream_bytes_ok l (fst x)).
Qed.
Lemma v1_part : forall o pre v1 v1t, mo_tags o = true -> file_end (pre ++ v1) v1 -> v1_of o v1 v1t ->
  exists found, find_id3v1 (pre ++ v1) = (lenN pre, found) /\ (found = true -> lenN v1 = 128) /\ (found = false -> v1 = []) /\
  (if found && mo_tags o then let? t := aac_tag (v1_parse (dropN (lenN pre) (pre ++ v1)) (mo_strict o)) in Ok (Some t) else Ok None) = Ok v1t.
Proof.
  intros o pre v1 v1t T FE V1. rewrite T. unfold v1_of in V1. destruct FE as [[-> H]|[L TG]].
  - exists false. unfold find_id3v1. rewrite app_nil_r in *. repeat split; auto; try discriminate.
    + destruct (N.ltb_spec (lenN pre) 128); auto. destruct (list_eqb _ TAG) eqn:E; auto. apply list_eqb_eq in E. destruct H; auto.
    + destruct v1t; auto. destruct V1 as (_ & X & _). discriminate X.
  - exists true. unfold find_id3v1. rewrite lenN_app, L. destruct (N.ltb_spec (lenN pre + 128) 128) as [X|_]; [lia|]. replace (lenN pre + 128 - 128) with (lenN pre) by lia.
    rewrite dropN_app by auto. rewrite TG. change (list_eqb ($"TAG") TAG) with true. repeat split; auto; try discriminate. cbn [andb]. destruct v1t as [t|].
    + destruct V1 as (_ & _ & ->). reflexivity.
    + destruct V1 as [-> | X]; [discriminate L|congruence].
Qed.
Lemma rate_lt : forall f, avalid f -> 7350 <= arate f <= 96000.
Proof.
  intros f (_ & R & _). unfold arate. assert (X : x_rate f = N.of_nat (N.to_nat (x_rate f))) by lia. revert X. generalize (N.to_nat (x_rate f)). intros n X. do 13 (destruct n as [|n]; [cbn [nth]; lia|]). lia.
Qed.
Lemma scaled : forall len rate, rate <= 96000 -> len * rate / 1024 * 8 / 1024 <= len.
Proof. intros len rate R. apply N.div_le_upper_bound; [lia|]. assert (len * rate / 1024 <= len * 94). { apply N.div_le_upper_bound; [lia|]. nia. } lia. Qed.
Lemma code_rate_le : forall x, aframe_ok x -> code_rate x <= alength x.
Proof. intros x (V & _). apply scaled. pose proof (rate_lt (fst x) V). lia. Qed.
Lemma sum_le : forall l f, Forall (fun z => aframe_ok z /\ akind (fst z) f) l -> sumN (map code_rate l) <= lenN (astream l) /\ lenN l <= lenN (astream l).
Proof.
  induction l as [|x l IH]; intros f F; [split; cbv; discriminate|]. apply Forall_cons_iff in F as [[OX _] F]. destruct (IH f F) as [I1 I2]. cbn [map sumN fold_right]. unfold astream. cbn [flat_map].
  rewrite lenN_app, aframe_len, lenN_cons. fold (astream l). fold (sumN (map code_rate l)). pose proof (code_rate_le x OX). unfold alength in *. lia.
Qed.
Lemma aac_main : forall inflate rounds o m x l z v1t, afile_ok inflate o m -> ax_frames m = x :: l ++ [z] -> v1_of o (ax_v1 m) v1t -> lenN (afile_bytes m) < 2 ^ 32 -> (length l < rounds)%nat ->
  aac_read inflate rounds o (afile_bytes m) =
    if mo_props o then
      if code_rate x =? 0 then Err AcBitrate
      else let? p := aac_properties (header_of_frame (fst x) (alength x)) (sumN (map code_rate (x :: l)) / lenN (x :: l)) (ax_stream m) in Ok (mkAF (merged (ax_tags m)) v1t (Some p))
    else Ok (mkAF (merged (ax_tags m)) v1t None).
Proof.
  intros inflate rounds o m x l z v1t OK EF V1 L32 R. assert (Y : exists y r, l ++ [z] = y :: r) by (destruct l; cbn [app]; eauto). destruct Y as (y & r & Y).
  assert (EF' : ax_frames m = x :: y :: r) by now rewrite EF, Y.
  pose proof (lead_all inflate o m x y r OK EF') as LA. destruct (first_nonzero m inflate o x _ OK EF) as (b & t & B & EB).
  assert (OK' := OK). destruct OK' as [OT OF (OJ & SJ & IJ & ZJ) OS (OP & SP) OV OR]. unfold aac_read.
  unfold afile_bytes at 1. unfold ax_before. rewrite <- app_assoc, EB, zeros_skip, N.add_0_l by auto. rewrite LA. cbn [bind].
  destruct (v1_part o (ax_before m ++ ax_junk m ++ astream (ax_frames m) ++ ax_post m) (ax_v1 m) v1t OR) as (found & F1 & F2 & F3 & F4); [rewrite <- !app_assoc; exact OV|exact V1|].
  rewrite <- !app_assoc in F1, F4. fold (afile_bytes m) in F1, F4. rewrite F1, F4. cbn [bind].
  assert (SL : (if found then if ax_stream m + lenN (ax_v1 m) <? 128 then Err AcSize else Ok (ax_stream m + lenN (ax_v1 m) - 128) else Ok (ax_stream m + lenN (ax_v1 m))) = @Ok aac_error N (ax_stream m)).
  { destruct found. - rewrite (F2 eq_refl). replace (ax_stream m + 128 <? 128) with false by (symmetry; apply N.ltb_ge; lia). f_equal. lia. - rewrite (F3 eq_refl), lenN_nil. f_equal. lia. }
  rewrite SL. cbn [bind]. destruct (mo_props o); [|reflexivity].
  rewrite EF in OS. rewrite Y in OS. unfold astream_ok in OS. rewrite <- Y in OS. apply Forall_cons_iff in OS as [[OX KX] OS].
  change (a_rate (header_of_frame (fst x) (alength x))) with (arate (fst x)). pose proof (rate_lt (fst x) (proj1 OX)) as RL. destruct (N.eqb_spec (arate (fst x)) 0) as [Z|_]; [lia|]. cbn [andb].
  change (a_bitrate (header_of_frame (fst x) (alength x))) with (code_rate x). destruct (N.eqb_spec (code_rate x) 0) as [_|_]; [reflexivity|].
  assert (ED : afile_bytes m = (ax_before m ++ ax_junk m ++ aframe x) ++ astream (l ++ [z]) ++ (ax_post m ++ ax_v1 m)).
  { unfold afile_bytes. rewrite EF. unfold astream. cbn [flat_map]. now rewrite <- !app_assoc. }
  destruct (sum_le (l ++ [z]) (fst x) OS) as [S1 S2].
  assert (LE : lenN (aframe x) + lenN (astream (l ++ [z])) <= lenN (afile_bytes m)) by (rewrite ED, !lenN_app; lia). rewrite aframe_len in LE. pose proof (code_rate_le x OX) as CX.
  assert (S3 : sumN (map code_rate l) <= sumN (map code_rate (l ++ [z]))). { clear. induction l as [|a l IH]; cbn [app map sumN fold_right]; [lia|]. unfold sumN in *. lia. }
  rewrite lenN_app in S2. change (lenN [z]) with 1 in S2.
  rewrite ED. rewrite (count_all l (fst x)); auto; try lia. cbn [bind map sumN fold_right]. rewrite lenN_cons. fold (sumN (map code_rate l)). rewrite (N.add_comm 1 (lenN l)) || idtac. reflexivity.
Qed.
