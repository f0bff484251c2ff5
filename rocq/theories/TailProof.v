(** Tags at the end of WavPack and Musepack files: ID3v1 last, an APE tag before it. *)
From Verif Require Import BaseLemmas StrLemmas Id3v1Model Id3v1Thm Id3v2HeaderModel Id3v2HeaderThm FrameReadModel ApeModel ApeProof ApeProof2 ApeThm2 MpegModel MpegProof3.
From Verif Require Import Base Str.

Lemma without_tags : forall data f cover r t h r', read_ape_tag data f cover true r = Ok (t, h, r') -> exists r2, read_ape_tag data f cover false r = Ok (None, h, r2).
Proof.
  intros data f cover r t h r' H. unfold read_ape_tag in *. destruct (rd_exact 8 r) as [[p r1]| |]; try discriminate. cbn [bind] in *. destruct (list_eqb p PREAMBLE); [|injection H as _ <- _; eauto].
  destruct (read_ape_header data f r1) as [[[size count] r2]| |]; try discriminate. cbn [bind] in *. destruct (read_with_header size count cover r2) as [[t1 r3]| |]; try discriminate. cbn [bind] in H. injection H as _ <- _. eauto.
Qed.
(** Without reading, the position afterwards is that of the items, after the header. *)
Lemma untagged_at : forall t b pre post cover, at_items t <> [] -> ape_dump t = Ok b -> lenN b < 2 ^ 32 -> let data := pre ++ b ++ post in
  read_ape_tag data true cover false (rd_at data (lenN (pre ++ b) - 32)) = Ok (None, Some (lenN b, lenN (at_items t)), rd_at data (lenN pre + 32)).
Proof.
  intros t b pre post cover Ne D LB32 data. destruct (dump_inv t b D Ne) as (f1 & f2 & B). cbv zeta in B. destruct B as (B & C1 & C2).
  set (body := flat_map item_bytes (at_items t)) in *. set (cnt := lenN (at_items t)) in *.
  assert (LB : lenN b = lenN body + 64) by (rewrite B, !lenN_app, !frame_len; lia).
  assert (LD : lenN data = lenN pre + (lenN body + 64) + lenN post) by (unfold data; rewrite !lenN_app, LB; lia).
  assert (AT2 : rd_at data (lenN (pre ++ b) - 32) = (lenN (pre ++ b) - 32, ApeModel.frame_bytes (lenN body + 32) cnt f2 ++ post)).
  { unfold rd_at, data. f_equal. rewrite B. rewrite <- !app_assoc. rewrite !lenN_app, !frame_len.
    rewrite (app_assoc (ApeModel.frame_bytes _ _ f1)), (app_assoc pre). apply dropN_app. rewrite !lenN_app, frame_len. lia. }
  rewrite AT2. unfold read_ape_tag. unfold ApeModel.frame_bytes at 1. rewrite <- !app_assoc. unfold rd_exact. cbn [fst snd].
  rewrite read_exact_app by reflexivity. cbn [or_io bind]. rewrite list_eqb_refl.
  rewrite (footer_at _ (lenN body + 32) cnt); try lia. 2:{ rewrite lenN_app. lia. }
  cbn [bind]. replace (lenN (pre ++ b) - 32 + 32 - (lenN body + 32)) with (lenN pre + 32) by (rewrite lenN_app; lia). replace (N.min U32_MAX (lenN body + 32 + 32)) with (lenN b) by (unfold U32_MAX; lia). reflexivity.
Qed.
(** The APE tag that reading gives for the bytes of an APE tag *)
Definition ape_of (o : mopts) (ape : bytes) (t : option ape_tag) : Prop :=
  match t with
  | None => ape = [] \/ mo_tags o = false
  | Some t => exists u, (Forall item_ok (at_items u) /\ NoDup (map (fun i => lower (ai_key i)) (at_items u))) /\ ape_dump u = Ok ape /\ at_items u <> [] /\ mo_tags o = true /\ t = mkApeTag false (filter (shown (fo_cover (mo_frames o))) (at_items u))
  end.
Lemma tail_pieces : forall o body ape v1 v1t, file_end (body ++ ape ++ v1) v1 -> old_tag body ape -> 32 <= lenN (body ++ ape) -> v1_of o v1 v1t ->
  let data := body ++ ape ++ v1 in let p := lenN (body ++ ape) in
  exists found t h r, find_id3v1 data = (p, found) /\ lenN v1 = (if found then 128 else 0) /\
    (if found && mo_tags o then exists x, v1_parse (dropN p data) (mo_strict o) = Ok x /\ v1t = Some x else v1t = None) /\
    find_lyrics3v2 data p = Ok (false, 0, p) /\
    read_ape_tag data true (fo_cover (mo_frames o)) (mo_tags o) (rd_at data (p - 32)) = Ok (t, h, r) /\
    match h with None => ape = [] | Some (size, _) => size = lenN ape /\ ape <> [] /\ fst r = (if mo_tags o then lenN (body ++ ape) else lenN body + 32) end /\ ape_of o ape t.
Proof.
  intros o body ape v1 v1t FE OT L32 V1. cbv zeta. set (data := body ++ ape ++ v1) in *.
  assert (LD : lenN data = lenN (body ++ ape) + lenN v1) by (unfold data; rewrite !lenN_app; lia).
  destruct (find_end (body ++ ape) v1) as (fd & F1). { rewrite <- app_assoc. exact FE. }
  rewrite <- app_assoc in F1. fold data in F1. exists fd.
  assert (LV : lenN v1 = if fd then 128 else 0).
  { unfold find_id3v1 in F1. destruct (N.ltb_spec (lenN data) 128). { injection F1 as F1 <-. lia. } destruct (list_eqb _ TAG); injection F1 as F1 <-; lia. }
  assert (V : if fd && mo_tags o then exists x, v1_parse (dropN (lenN (body ++ ape)) data) (mo_strict o) = Ok x /\ v1t = Some x else v1t = None).
  { assert (DV : dropN (lenN (body ++ ape)) data = v1) by (unfold data; rewrite app_assoc; now apply dropN_app). rewrite DV.
    destruct v1t as [t|]; cbn [v1_of] in V1.
    - destruct V1 as (T & L & P). rewrite T, P. destruct fd; [cbn [andb]; eauto|]. rewrite L in LV. discriminate.
    - destruct V1 as [->|T]; [|now rewrite T, andb_false_r]. rewrite lenN_nil in LV. now destruct fd. }
  assert (LY : find_lyrics3v2 data (lenN (body ++ ape)) = Ok (false, 0, lenN (body ++ ape))).
  { pose proof (C35_never_recognised data (lenN (body ++ ape)) ltac:(lia)) as LY. destruct (find_lyrics3v2 data (lenN (body ++ ape))) as [[[lf ls] pos]| |]; [|lia|contradiction]. destruct LY as (-> & -> & ->). reflexivity. }
  assert (R : exists t h r, read_ape_tag data true (fo_cover (mo_frames o)) (mo_tags o) (rd_at data (lenN (body ++ ape) - 32)) = Ok (t, h, r) /\
    match h with None => ape = [] | Some (size, _) => size = lenN ape /\ ape <> [] /\ fst r = (if mo_tags o then lenN (body ++ ape) else lenN body + 32) end /\ ape_of o ape t).
  { destruct OT as [[EA NT]|(Lo & t & IO & ND & Ne & D)].
    - rewrite EA in *. rewrite app_nil_r in *. exists None, None. unfold read_ape_tag, rd_exact, rd_at. cbn [fst snd]. unfold read_exact. rewrite lenN_dropN. destruct (N.leb_spec 8 (lenN data - (lenN body - 32))); [|lia]. cbn [or_io bind].
      destruct (list_eqb _ PREAMBLE) eqn:E; [|eexists; repeat split; cbn; auto]. apply list_eqb_eq in E. destruct NT. unfold data in E. rewrite dropN_app_le in E by lia. rewrite takeN_app_le in E by (rewrite lenN_dropN; lia). exact E.
    - destruct (read_back t ape body v1 (fo_cover (mo_frames o)) IO ND Ne D) as [_ RB]. cbv zeta in RB. fold data in RB. replace (N.min U32_MAX (lenN ape)) with (lenN ape) in RB by (unfold U32_MAX; lia).
      assert (NE : ape <> []). { intros ->. destruct (dump_inv t [] D Ne) as (f1 & f2 & B). cbv zeta in B. destruct B as (B & _). apply (f_equal (@lenN N)) in B. rewrite !lenN_app, !frame_len in B. change (lenN (@nil N)) with 0 in B. lia. }
      destruct (mo_tags o) eqn:TG.
      + do 3 eexists. split; [exact RB|]. split; [split; [reflexivity|split; [exact NE|reflexivity]]|]. exists t. auto 8.
      + pose proof (untagged_at t ape body v1 (fo_cover (mo_frames o)) Ne D Lo) as RU. cbv zeta in RU. fold data in RU. exists None. do 2 eexists. split; [exact RU|]. split; [split; [reflexivity|split; [exact NE|reflexivity]]|]. right. auto. }
  destruct R as (t & h & r & R1 & R2 & R3). exists t, h, r. auto 10.
Qed.
