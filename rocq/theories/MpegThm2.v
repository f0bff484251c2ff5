(** MPEG files with an APE tag before the audio (C171, C172). *)
From Verif Require Import BaseLemmas StrLemmas Id3v2HeaderProof Id3v2HeaderThm ApeThm2 ApeProof2 TextProof Id3v1Thm FrameTotalThm TailProof.
From Verif Require Import Id3v1Model ApeModel FrameReadModel MathModel Id3v2HeaderModel MpegProof5.
From Verif Require Import MpegSpec MpegThm.

Lemma lead_ape : forall inflate fuel pre t b rest o v2 ape, mo_tags o = true ->
  Forall item_ok (at_items t) -> NoDup (map (fun i => lower (ai_key i)) (at_items t)) -> at_items t <> [] -> ape_dump t = Ok b ->
  lead inflate (S fuel) (pre ++ b ++ rest) o v2 ape (lenN pre) =
  lead inflate fuel (pre ++ b ++ rest) o v2 (Some (mkApeTag false (filter (shown (fo_cover (mo_frames o))) (at_items t)))) (lenN (pre ++ b)).
Proof.
  intros inflate fuel pre t b rest o v2 ape T F ND Ne D. destruct (read_back t b pre rest (fo_cover (mo_frames o)) F ND Ne D) as [RB _]. cbv zeta in RB.
  destruct (dump_inv t b D Ne) as (f1 & f2 & B). cbv zeta in B. destruct B as (B & _ & _).
  set (data := pre ++ b ++ rest) in *. cbn [lead].
  assert (X : exists r, b = PREAMBLE ++ r) by (rewrite B; unfold ApeModel.frame_bytes; rewrite <- !app_assoc; eauto). destruct X as [br X].
  assert (D0 : dropN (lenN pre) data = $"APET" ++ $"AGEX" ++ br ++ rest) by (unfold data; rewrite dropN_app, X by auto; reflexivity).
  assert (D4 : dropN (lenN pre + 4) data = $"AGEX" ++ br ++ rest) by (rewrite <- dropN_dropN, D0; now apply dropN_app).
  assert (D8 : dropN (lenN pre + 8) data = br ++ rest) by (rewrite <- dropN_dropN, D0, app_assoc; now apply dropN_app).
  rewrite D0, read_exact_app by reflexivity. change (list_eqb (takeN 3 ($"APET")) ($"ID3")) with false. change (list_eqb ($"APET") ($"APET")) with true. cbv iota.
  rewrite D4, read_exact_app by reflexivity. change (list_eqb ($"AGEX") ($"AGEX")) with true. cbv iota.
  unfold read_ape_tag, rd_exact in RB. unfold rd_at at 1 2 in RB. cbn [fst snd] in RB. rewrite D0, (app_assoc ($"APET")), read_exact_app in RB by reflexivity. cbn [or_io bind] in RB.
  change (list_eqb ($"APET" ++ $"AGEX") PREAMBLE) with true in RB. cbv iota in RB. unfold rd_at at 1. rewrite D8.
  destruct (read_ape_header data false (lenN pre + 8, br ++ rest)) as [[[size count] r]| |]; cbn [tag_res bind] in RB |- *; try discriminate RB.
  rewrite T. destruct (read_with_header size count _ r) as [[t' r']| |]; cbn [tag_res bind] in RB |- *; try discriminate RB.
  injection RB as E1 _ _ E2. rewrite E2. unfold rd_at. cbn [fst]. now rewrite E1.
Qed.

(** ID3v2 tags, an APE tag, the frames and an ID3v1 tag: all are read, and the first frame is the one behind the APE tag. *)
Theorem C171_leading_ape : forall inflate o foot ts t b x y l v1 v1t, let data := front_of foot ts ++ b ++ audio_of (x :: y :: l) ++ v1 in
  Forall (vtag_ok inflate (mo_frames o)) ts -> foot_ok foot ts -> stream_ok (x :: y :: l) -> Forall (fun x => regular (fst x)) (x :: y :: l) ->
  Forall item_ok (at_items t) -> NoDup (map (fun i => lower (ai_key i)) (at_items t)) -> at_items t <> [] -> ape_dump t = Ok b ->
  (ts = [] -> no_id3 b \/ mo_strict o = true) -> file_end data v1 -> v1_of o v1 v1t -> old_tag (front_of foot ts ++ b ++ audio_of (x :: y :: l)) [] -> mo_tags o = true ->
  mpeg_read inflate o data =
    let v2 := match ts with [] => None | t :: ts => Some (fold_left (fun a t => add_frames a (tg_parsed t)) ts (tg_parsed t)) end in
    let ape := Some (mkApeTag false (filter (shown (fo_cover (mo_frames o))) (at_items t))) in
    let start := lenN (front_of foot ts ++ b) in
    if mo_props o then
      match read_exact 32 (dropN (start + xing_offset (fst x)) data) with
      | None => Err MIo
      | Some (b, _) =>
          let? vbr := vbr_read b in
          let? p := read_properties data (header_of (fst x)) start (lenN data - lenN v1) vbr (lenN data) in
          Ok (mkMF v2 v1t ape p)
      end
    else Ok (mkMF v2 v1t ape mprops_default).
Proof.
  intros inflate o foot ts t b x y l v1 v1t data FT FO OS OR IO ND Ne D NI FE V1 OT T.
  set (front := front_of foot ts) in *. set (audio := audio_of (x :: y :: l)) in *.
  assert (XB : exists r, b = PREAMBLE ++ r).
  { destruct (dump_inv t b D Ne) as (f1 & f2 & B). cbv zeta in B. destruct B as (B & _ & _). rewrite B. unfold ApeModel.frame_bytes. rewrite <- !app_assoc. eauto. }
  destruct XB as [br XB].
  unfold stream_ok in OS. pose proof OS as OS'. apply Forall_cons_iff in OS as [[S1 _] OS]. apply Forall_cons_iff in OS as [[S2 K2] _]. pose proof OR as OR'. apply Forall_cons_iff in OR as [R1 OR]. apply Forall_cons_iff in OR as [R2 _].
  assert (FL : 48 <= lenN audio).
  { unfold audio. rewrite !audio_cons, !lenN_app, !frame_len_ok by auto. pose proof (lengths_mod (fst x) (proj1 S1)). pose proof (lengths_mod (fst y) (proj1 S2)). lia. }
  destruct (tail_spec o (front ++ b ++ audio) [] v1 v1t (Some (mkApeTag false (filter (shown (fo_cover (mo_frames o))) (at_items t))))) as (ape' & TL & A1 & _); auto.
  { cbn [app]. unfold data in FE. now rewrite <- !app_assoc. } { rewrite app_nil_r, !lenN_app. lia. }
  cbn [app] in TL. rewrite (A1 eq_refl) in TL. replace ((front ++ b ++ audio) ++ v1) with data in TL by (unfold data; now rewrite <- !app_assoc).
  unfold mpeg_read.
  assert (Z : skip_zeros data 0 = Some 0).
  { unfold data, front. destruct ts as [|u us]; cbn [front_of app]; [rewrite XB; reflexivity|]. unfold vtag_bytes at 1, hdr_bytes. reflexivity. }
  rewrite Z.
  assert (LE : lead inflate (S (length data)) data o None None 0 =
    Ok (merged ts, Some (mkApeTag false (filter (shown (fo_cover (mo_frames o))) (at_items t))), Some (header_of (fst x), lenN (front ++ b)))).
  { pose proof (front_len foot ts) as FN. fold front in FN.
    assert (LN : (length data = length front + (length b + (length audio + length v1)))%nat) by (unfold data; now rewrite !app_length).
    assert (LB : (8 <= length b)%nat) by (rewrite XB, app_length; cbn [length]; change (length PREAMBLE) with 8%nat; lia).
    replace (S (length data)) with (length ts + S (S (length data - length ts - 1)))%nat by lia.
    set (k := (length data - length ts - 1)%nat). clearbody k.
    pose proof (lead_front inflate o foot ts (S (S k)) [] (b ++ audio ++ v1) None FT FO) as L1. cbn [app] in L1. change (lenN (@nil N)) with 0 in L1. fold front in L1. fold data in L1. rewrite L1, T.
    unfold data. rewrite (lead_ape inflate (S k) front t b (audio ++ v1)) by auto.
    replace (front ++ b ++ audio ++ v1) with ((front ++ b) ++ MpegSpec.frame_bytes x ++ MpegSpec.frame_bytes y ++ audio_of l ++ v1) by (unfold audio; rewrite !audio_cons; now rewrite <- !app_assoc).
    apply lead_frames; auto. intros NO. destruct ts as [|u us]; [|discriminate NO]. unfold front. cbn [front_of app]. destruct (NI eq_refl); auto. }
  rewrite LE. cbn [bind]. rewrite TL. cbn [bind].
  replace (lenN data - lenN v1) with (lenN (front ++ b ++ audio)) by (unfold data; rewrite !lenN_app; lia).
  destruct (mo_props o); reflexivity.
Qed.

(** If the tags are not read, 32 bytes too many are skipped, and two frames are lost. *)
Definition lead_file : bytes := ape_bytes ++ audio_of (repeat frame0 8).
Theorem C172_leading_refuted : duration_of (mpeg_read no_inflate opts0 lead_file) = Some 192 /\
  duration_of (mpeg_read no_inflate (mkMO (mo_frames opts0) false true 1024) lead_file) = Some 144.
Proof. split; vm_compute; reflexivity. Qed.
Example C171_leading_example : exists f, mpeg_read no_inflate opts0 (text_tag 0 ($"TIT2") ($"ab") ++ lead_file) = Ok f /\ names f = Some [$"TIT2"] /\
  option_map (fun t => map ai_key (at_items t)) (mf_ape f) = Some [$"Title"] /\ p_duration (mf_props f) = 192.
Proof. eexists. split; [vm_compute; reflexivity|]. repeat split. Qed.
