(** C243: a generic tag saved as ID3v2.4 to a WAV or AIFF file and read again. [Tag::save_to] writes the frames of [tag_frames] with default flags into an ID3 chunk. *)
From Coq Require Import Permutation.
From Verif Require Import IffModel IffSpec IffProof IffProof2 IffProof3 IffProof4 AiffModel AiffProof AiffProof2 IffThm2 ChunkTagModel.
From Verif Require Import MpegModel MpegProof3 FrameSaveThm Id3v2HeaderProof BaseLemmas Frame23Proof FrameProof2 FrameThm.
From Verif Require Import Id3v2TagThm2 GenericId3Thm.
From Verif Require Import Id3v2TagSpec.

(** The chunks of a file in which a tag can be saved, and those that are kept; the new chunk goes to the end. *)
Inductive replaces (be padding : bool) (new : bytes * bytes) : list (bytes * bytes) -> bytes -> list (bytes * bytes) -> Prop :=
| rp_added : forall cs junk, Forall no_tag cs -> replaces be padding new cs junk cs
| rp_moved : forall a c b junk, Forall no_tag (a ++ b) -> id3_id (fst c) = true -> b <> [] \/ junk <> [] ->
    (be = true \/ padding = false \/ lenN (chunk_bytes be c) < 8 + lenN (chunk_bytes be new)) -> replaces be padding new (a ++ c :: b) junk (a ++ b)
| rp_last : forall a c, Forall no_tag a -> id3_id (fst c) = true -> lenN (chunk_bytes be new) <= lenN (chunk_bytes be c) -> replaces be padding new (a ++ [c]) [] a.
Lemma replaces_kept : forall be padding new old junk kept, replaces be padding new old junk kept -> Forall no_tag kept.
Proof. intros be padding new old junk kept R. destruct R; auto. Qed.
Lemma replaces_saves : forall be upper padding m magic kind tag old junk kept, id_ok magic -> lenN kind = 4 -> tag <> [] -> lenN tag < 2 ^ 32 -> Forall chunk_ok old ->
  replaces be padding (id3_name upper, tag) old junk kept -> 12 + lenN (body be old) < 2 ^ 32 -> 12 + lenN (body be (kept ++ [(id3_name upper, tag)])) < 2 ^ 32 ->
  saves be m upper padding (iff_file be magic kind old ++ junk) tag (iff_file be magic kind (kept ++ [(id3_name upper, tag)]) ++ junk).
Proof.
  intros be upper padding m magic kind tag old junk kept IM KL NE TL OK R L1 L2. destruct R as [cs junk F|a c b junk F I NB P|a c F I P].
  - apply C106_added; auto.
  - rewrite <- app_assoc. apply Forall_app in F as [F _]. apply C106_moved; auto; [|now rewrite app_assoc]. destruct P as [->|[->|P]]; auto. left. apply andb_false_r.
  - rewrite !app_nil_r. apply C106_last; auto.
Qed.
Lemma chunk_parsed : forall inflate o t, vtag_ok inflate o t -> chunk_id3 inflate o (vtag_bytes t) = Ok (tg_parsed t).
Proof.
  intros inflate o t V. destruct (vtag_parse inflate o t [] V) as [A B]. rewrite !app_nil_r in *. unfold chunk_id3. rewrite A, B. reflexivity.
Qed.
Lemma fits_nonempty : forall custom order gs fs ps w tag, (forall l, Permutation (order l) l) -> (forall st, rate custom Id3v2 st < 256) -> id3_fits custom gs fs ps -> w_v23 w = false ->
  create_tag w NO_FLAGS (tag_frames order custom (generic gs ps)) = Ok tag -> lenN tag < 2 ^ 32 -> 10 <= lenN tag.
Proof.
  intros custom order gs fs ps w tag Or Rb F V E L. destruct (fits_saved custom order gs fs ps w (fun _ => None) (mkFO Strict true true) tag Or Rb F V eq_refl E L) as (t & _ & B & _).
  rewrite <- B, vtag_len. lia.
Qed.
Lemma chunk_saved : forall be m upper custom order gs fs ps w magic kind old junk kept log, (forall l, Permutation (order l) l) -> (forall st, rate custom Id3v2 st < 256) -> id3_fits custom gs fs ps -> w_v23 w = false ->
  id_ok magic -> lenN kind = 4 -> Forall chunk_ok old -> 12 + lenN (body be old) < 2 ^ 32 ->
  (forall tag, create_tag w NO_FLAGS (tag_frames order custom (generic gs ps)) = Ok tag ->
     replaces be (match w_padding w with Some _ => true | None => false end) (id3_name upper, tag) old junk kept /\ 12 + lenN (body be (kept ++ [(id3_name upper, tag)])) < 2 ^ 32) ->
  save_id3_chunk be m upper w NO_FLAGS (tag_frames order custom (generic gs ps)) (iff_file be magic kind old ++ junk) = Ok log ->
  Forall no_tag kept /\ exists tag, (forall inflate o, fo_cover o = true -> exists t, chunk_id3 inflate o tag = Ok t /\ id3_again custom gs ps t) /\ 10 <= lenN tag /\ chunk_ok (id3_name upper, tag) /\
    12 + lenN (body be (kept ++ [(id3_name upper, tag)])) < 2 ^ 32 /\
    apply_log (iff_file be magic kind old ++ junk) log = iff_file be magic kind (kept ++ [(id3_name upper, tag)]) ++ junk.
Proof.
  intros be m upper custom order gs fs ps w magic kind old junk kept log Or Rb F V IM KL OK L1 R S. unfold save_id3_chunk in S. change (without_footer NO_FLAGS) with NO_FLAGS in S.
  destruct (create_tag w NO_FLAGS (tag_frames order custom (generic gs ps))) as [tag| |] eqn:E; try discriminate S. destruct (R tag eq_refl) as [RP L2].
  assert (LT : lenN tag < 2 ^ 32). { assert (B1 : body be (kept ++ [(id3_name upper, tag)]) = body be kept ++ chunk_bytes be (id3_name upper, tag)) by (unfold body; rewrite flat_map_app; cbn; now rewrite app_nil_r). rewrite B1, lenN_app in L2. unfold chunk_bytes in L2. cbn [snd] in L2. rewrite !lenN_app in L2. lia. }
  pose proof (fits_nonempty custom order gs fs ps w tag Or Rb F V E LT) as NE.
  split; [eapply replaces_kept; eauto|]. exists tag. split; [|split; [exact NE|split; [|split; [exact L2|]]]].
  - intros inflate o C. destruct (fits_saved custom order gs fs ps w inflate o tag Or Rb F V C E LT) as (t & A & B & D & _). exists (tg_parsed t). split; auto. rewrite <- B. now apply chunk_parsed.
  - split; [apply id3_name_ok|exact LT].
  - destruct (replaces_saves be upper (match w_padding w with Some _ => true | None => false end) m magic kind tag old junk kept IM KL) as (ops & W & A); auto.
    { intros ->. rewrite lenN_nil in NE. lia. }
    rewrite S in W. injection W as <-. exact A.
Qed.

Theorem C243_wav : forall m upper custom order gs fs ps w inflate o old junk ws log, (forall l, Permutation (order l) l) -> (forall st, rate custom Id3v2 st < 256) -> id3_fits custom gs fs ps -> w_v23 w = false ->
  fo_cover o = true -> Forall chunk_ok old -> 12 + lenN (body false old) < 2 ^ 32 -> lenN junk < 8 -> Forall (wchunk_ok (fo_mode o)) ws ->
  (forall tag, create_tag w NO_FLAGS (tag_frames order custom (generic gs ps)) = Ok tag ->
     replaces false (match w_padding w with Some _ => true | None => false end) (id3_name upper, tag) old junk (map to_chunk ws) /\ 12 + lenN (body false (map to_chunk ws ++ [(id3_name upper, tag)])) < 2 ^ 32) ->
  save_id3_chunk false m upper w NO_FLAGS (tag_frames order custom (generic gs ps)) (riff_file old ++ junk) = Ok log ->
  exists f t, wav_read (chunk_id3 inflate o) add_frames (fo_mode o) true false (apply_log (riff_file old ++ junk) log) = Ok f /\ wf_id3 f = Some t /\ id3_again custom gs ps t /\
    wf_info f = match infos ws with [] => None | i => Some i end.
Proof.
  intros m upper custom order gs fs ps w inflate o old junk ws log Or Rb F V C OK L1 J WO R S.
  destruct (chunk_saved false m upper custom order gs fs ps w ($"RIFF") ($"WAVE") old junk (map to_chunk ws) log) as (NT & tag & P & L10 & CO & L2 & A); auto.
  { apply id_ok_valid. split; reflexivity. }
  destruct (P inflate o C) as (t & PT & AG). fold riff_file in A. change (apply_log (riff_file old ++ junk) log = riff_file (map to_chunk ws ++ [(id3_name upper, tag)]) ++ junk) in A.
  assert (IN : id3_id (id3_name upper) = true) by (destruct upper; reflexivity).
  assert (W2 : Forall (wchunk_ok (fo_mode o)) (ws ++ [WChunk (id3_name upper, tag)])).
  { apply Forall_app. split; auto. constructor; [|constructor]. split; [exact CO|]. split; [destruct upper; reflexivity|]. split; [|split; [|intros _ _; exact L10]].
    - unfold list_ok. cbn [fst]. intros X; destruct upper; discriminate X.
    - cbn [fst]. intro X; destruct upper; discriminate X. }
  assert (ME : map to_chunk (ws ++ [WChunk (id3_name upper, tag)]) = map to_chunk ws ++ [(id3_name upper, tag)]) by (rewrite map_app; reflexivity).
  assert (NI : id3_contents ws = []).
  { clear - NT. induction ws as [|x ws IH]; auto. cbn [map] in NT. inversion NT as [|? ? N1 N2]; subst. unfold id3_contents in *. cbn [flat_map]. rewrite (IH N2), app_nil_r. destruct x as [subs|c]; auto. unfold no_tag in N1. cbn [to_chunk] in N1. now rewrite N1. }
  rewrite A, <- ME, wav_read_spec; auto; [|rewrite ME; lia].
  assert (IC : id3_contents (ws ++ [WChunk (id3_name upper, tag)]) = [tag]).
  { unfold id3_contents in *. rewrite flat_map_app, NI. cbn [flat_map app fst snd]. rewrite IN. replace (lenN tag <? 10) with false by (symmetry; apply N.ltb_ge; lia). reflexivity. }
  rewrite IC. cbn [join_if join_all]. rewrite PT. cbn [bind]. eexists _, t. split; [reflexivity|]. cbn [wf_id3 wf_info]. split; auto. split; auto.
  unfold infos. rewrite flat_map_app. cbn [flat_map]. now rewrite !app_nil_r.
Qed.
Print Assumptions C243_wav.

Lemma take_all_app : forall T (id3 : bytes -> res iff_error T) join m tags props a b s, take_all id3 join m tags props (a ++ b) s = (let? s := take_all id3 join m tags props a s in take_all id3 join m tags props b s).
Proof. intros T id3 join m tags props a. induction a as [|c a IH]; intros b s; [reflexivity|]. cbn [app take_all]. destruct (take1 id3 join m tags props c s); cbn [bind]; auto. Qed.
Lemma take1_keeps : forall T (id3 : bytes -> res iff_error T) join m tags props c s s', no_tag c -> take1 id3 join m tags props c s = Ok s' -> aa_id3 s' = aa_id3 s.
Proof.
  intros T id3 join m tags props c [comm stream name author copy anno comments tag] s' N E. unfold take1 in E. unfold no_tag, id3_id in N.
  assert (NN : list_eqb (fst c) ($"ID3 ") || list_eqb (fst c) ($"id3 ") = false) by (destruct (list_eqb (fst c) ($"ID3 ")), (list_eqb (fst c) ($"id3 ")); auto; discriminate N).
  rewrite NN in E. cbn [andb] in E. clear N NN.
  repeat match type of E with (if ?b then _ else _) = _ => destruct b | bind ?r _ = _ => destruct r; cbn [bind] in E end; try discriminate E; injection E as <-; reflexivity.
Qed.
Lemma take_all_keeps : forall T (id3 : bytes -> res iff_error T) join m tags props cs s s', Forall no_tag cs -> take_all id3 join m tags props cs s = Ok s' -> aa_id3 s' = aa_id3 s.
Proof.
  intros T id3 join m tags props cs. induction cs as [|c cs IH]; intros s s' F E; [now injection E as <-|]. inversion F; subst. cbn [take_all] in E.
  destruct (take1 id3 join m tags props c s) as [s1| |] eqn:E1; try discriminate E. cbn [bind] in E. rewrite (IH _ _ H2 E). eapply take1_keeps; eauto.
Qed.
(** [kept]: what is left of the file without its tag, which has to be readable. *)
Theorem C243_aiff : forall m upper custom order gs fs ps w inflate o kind old junk kept f0 log, (forall l, Permutation (order l) l) -> (forall st, rate custom Id3v2 st < 256) -> id3_fits custom gs fs ps -> w_v23 w = false ->
  fo_cover o = true -> aiff_kind kind -> Forall chunk_ok old -> 12 + lenN (body true old) < 2 ^ 32 -> lenN junk < 8 ->
  (forall tag, create_tag w NO_FLAGS (tag_frames order custom (generic gs ps)) = Ok tag ->
     replaces true (match w_padding w with Some _ => true | None => false end) (id3_name upper, tag) old junk kept /\ 12 + lenN (body true (kept ++ [(id3_name upper, tag)])) < 2 ^ 32) ->
  aiff_read (chunk_id3 inflate o) add_frames (fo_mode o) true false (form_file kind kept ++ junk) = Ok f0 ->
  save_id3_chunk true m upper w NO_FLAGS (tag_frames order custom (generic gs ps)) (form_file kind old ++ junk) = Ok log ->
  exists f t, aiff_read (chunk_id3 inflate o) add_frames (fo_mode o) true false (apply_log (form_file kind old ++ junk) log) = Ok f /\ af_id3 f = Some t /\ id3_again custom gs ps t /\ af_text f = af_text f0.
Proof.
  intros m upper custom order gs fs ps w inflate o kind old junk kept f0 log Or Rb F V C K OK L1 J R R0 S.
  assert (KO : Forall chunk_ok kept).
  { unfold save_id3_chunk in S. change (without_footer NO_FLAGS) with NO_FLAGS in S. destruct (create_tag w NO_FLAGS (tag_frames order custom (generic gs ps))) as [tag| |]; try discriminate S.
    destruct (R tag eq_refl) as [RP _]. inversion RP; subst; auto; apply Forall_app in OK as [O1 O2]; auto. apply Forall_app. split; auto. now inversion O2. }
  destruct (chunk_saved true m upper custom order gs fs ps w ($"FORM") kind old junk kept log) as (NT & tag & P & L10 & CO & L2 & A); auto.
  { apply id_ok_valid. split; reflexivity. } { now apply aiff_kind_len. }
  destruct (P inflate o C) as (t & PT & AG). fold form_file in A. change (apply_log (form_file kind old ++ junk) log = form_file kind (kept ++ [(id3_name upper, tag)]) ++ junk) in A.
  rewrite A. unfold form_file in *. rewrite iff_head in R0 |- *. rewrite aiff_read_spec in R0 by auto. rewrite aiff_read_spec; auto; [|apply Forall_app; split; auto].
  rewrite take_all_app. destruct (take_all (chunk_id3 inflate o) add_frames (fo_mode o) true false kept acc0) as [a| |] eqn:E; try discriminate R0. cbn [bind] in R0 |- *. injection R0 as <-.
  pose proof (take_all_keeps _ _ _ _ _ _ _ _ _ NT E) as I. cbn [take_all]. destruct a as [comm stream name author copy anno comments tg]. cbn [aa_id3 acc0] in I. subst tg.
  unfold take1. cbn [fst snd]. assert (X : (list_eqb (id3_name upper) ($"ID3 ") || list_eqb (id3_name upper) ($"id3 ")) && true = true) by (destruct upper; reflexivity).
  rewrite X. replace (lenN tag <? 10) with false by (symmetry; apply N.ltb_ge; lia). rewrite PT. cbn [bind]. eexists _, t. split; [reflexivity|]. cbn [af_id3 aa_id3 af_text]. auto.
Qed.
Print Assumptions C243_aiff.

(** ** Examples *)
Definition wav_roundtrip (cs : list (bytes * bytes)) (g : gtag) : option (option gtag * option (list (bytes * str))) :=
  match save_id3_chunk false BestAttempt false w_ex NO_FLAGS (tag_frames id_order DefaultProvider g) (riff_file cs) with
  | Ok log => match wav_read (chunk_id3 MpegThm.no_inflate (mkFO BestAttempt true true)) add_frames BestAttempt true false (apply_log (riff_file cs) log) with
              | Ok f => Some (option_map (to_tag DefaultProvider true) (wf_id3 f), wf_info f) | _ => None end
  | _ => None
  end.
Definition aiff_roundtrip (cs : list (bytes * bytes)) (g : gtag) : option (option gtag * option aiff_text) :=
  match save_id3_chunk true BestAttempt true w_ex NO_FLAGS (tag_frames id_order DefaultProvider g) (form_file ($"AIFF") cs) with
  | Ok log => match aiff_read (chunk_id3 MpegThm.no_inflate (mkFO BestAttempt true true)) add_frames BestAttempt true false (apply_log (form_file ($"AIFF") cs) log) with
              | Ok f => Some (option_map (to_tag DefaultProvider true) (af_id3 f), af_text f) | _ => None end
  | _ => None
  end.
Definition info_ex : bytes * bytes := ($"LIST", $"INFO" ++ $"INAM" ++ le_enc 4 2 ++ [65; 0]).
Definition small_ex : gtag := generic [[txt KTrackTitle ($"T")]] [].
Example C243_ex : wav_roundtrip [($"data", [1; 2]); info_ex] small_ex = Some (Some (mkTag Id3v2 [] [txt KTrackTitle ($"T")] None), Some [($"INAM", $"A")]) /\
  wav_roundtrip [($"data", [1; 2]); ($"id3 ", [1; 2; 3]); info_ex] small_ex = Some (Some (mkTag Id3v2 [] [txt KTrackTitle ($"T")] None), Some [($"INAM", $"A")]) /\
  aiff_roundtrip [($"NAME", [65; 66]); ($"ID3 ", repeat 1 100); ($"SSND", [1; 2])] small_ex =
    Some (Some (mkTag Id3v2 [] [txt KTrackTitle ($"T")] None), Some (mkAt (Some ($"AB")) None None None None)).
Proof. split; [|split]; vm_compute; reflexivity. Qed.
Example C243_files : let new tag := (id3_name false, tag) in
  (forall tag, lenN tag < 100 -> replaces false true (new tag) [($"data", [1; 2]); info_ex] [] [($"data", [1; 2]); info_ex]) /\
  (forall tag, replaces true true (new tag) [($"NAME", [65; 66]); ($"ID3 ", repeat 1 100); ($"SSND", [1; 2])] [] [($"NAME", [65; 66]); ($"SSND", [1; 2])]) /\
  exists ws, [($"data", [1; 2]); info_ex] = map to_chunk ws /\ Forall (wchunk_ok Strict) ws /\ infos ws = [($"INAM", $"A")].
Proof.
  cbv zeta. split; [|split].
  - intros tag _. apply rp_added. repeat constructor.
  - intro tag. apply (rp_moved true true _ [($"NAME", [65; 66])] ($"ID3 ", repeat 1 100) [($"SSND", [1; 2])]); auto; [repeat constructor|left; discriminate].
  - exists [WChunk ($"data", [1; 2]); WInfo [($"INAM", [65; 0])]]. split; [vm_compute; reflexivity|]. split; [|vm_compute; reflexivity].
    assert (I : forall id, valid_fourcc id = true -> lenN id = 4 -> id_ok id) by (intros; now apply id_ok_valid).
    constructor; [|constructor; [|constructor]]; (split; [split; [apply I; reflexivity|vm_compute; reflexivity]|]).
    + split; [reflexivity|]. split; [intro X; discriminate X|]. split; [intro X; discriminate X|intros _ X; discriminate X].
    + split; [constructor; [split; [apply I; reflexivity|reflexivity]|constructor]|constructor; [|constructor]]. intros _. eexists. vm_compute. reflexivity.
Qed.
(** A chunk at the end that is smaller than the new one: the operation panics (chunk_file.rs computes the new size of the file without the growth, see C106). *)
Theorem C243_growth_refuted : exists cs f0, wav_read (chunk_id3 MpegThm.no_inflate (mkFO BestAttempt true true)) add_frames BestAttempt true false (riff_file cs) = Ok f0 /\
  save_id3_chunk false BestAttempt false w_ex NO_FLAGS (tag_frames id_order DefaultProvider small_ex) (riff_file cs) = Panic.
Proof. exists [($"data", [1; 2]); ($"id3 ", [1; 2])]. eexists. split; vm_compute; reflexivity. Qed.
Print Assumptions C243_growth_refuted.
(** A chunk before the others that is larger than the new one, with padding: the tag is read again but the RIFF INFO tag is not. *)
Theorem C243_info_refuted : exists cs f0, wav_read (chunk_id3 MpegThm.no_inflate (mkFO BestAttempt true true)) add_frames BestAttempt true false (riff_file cs) = Ok f0 /\ wf_info f0 = Some [($"INAM", $"A")] /\
  wav_roundtrip cs small_ex = Some (Some (mkTag Id3v2 [] [txt KTrackTitle ($"T")] None), None).
Proof. exists [($"data", [1; 2]); ($"id3 ", hdr_bytes 4 0 0 140 ++ repeat 0 140); info_ex]. eexists. split; [vm_compute; reflexivity|]. split; vm_compute; reflexivity. Qed.
Print Assumptions C243_info_refuted.
(** A file whose size field does not count the four bytes of its type: a chunk at its end is still seen, but the new one is written before the last four bytes of it and loses its name with them. *)
Definition short_ex : bytes := let cs := [($"data", [1; 2]); ($"id3 ", hdr_bytes 4 0 0 14 ++ repeat 0 14)] in hdr false ($"RIFF") (lenN (body false cs)) ($"WAVE") ++ body false cs.
Theorem C243_size_refuted : exists f0 log f, let read := wav_read (chunk_id3 MpegThm.no_inflate (mkFO BestAttempt true true)) add_frames BestAttempt true false in
  read short_ex = Ok f0 /\ wf_id3 f0 <> None /\ save_id3_chunk false BestAttempt false w_ex NO_FLAGS (tag_frames id_order DefaultProvider small_ex) short_ex = Ok log /\
  read (apply_log short_ex log) = Ok f /\ wf_id3 f = None.
Proof. do 3 eexists. cbv zeta. split; [vm_compute; reflexivity|]. split; [discriminate|]. split; [vm_compute; reflexivity|]. split; vm_compute; reflexivity. Qed.
Print Assumptions C243_size_refuted.
