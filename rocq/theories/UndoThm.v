(** C249: a tag that is saved to a file without one and then removed leaves no trace. *)
From Verif Require Import BaseLemmas StrLemmas Id3v1Model Id3v1Spec Id3v1Proof Id3v1Thm Id3v2HeaderModel Id3v2HeaderThm.
From Verif Require PopmModel Id3v2TagModel Id3v2TagThm2 Id3v2HeaderProof ApeModel ApeProof ApeProof2 VorbisModel TextProof TextModel ApeThm2 FlacModel FlacSpec FlacProof FlacThm Mp4WriteModel Mp4Spec Mp4Ex Mp4Thm3.
From Verif Require Import IffModel IffSpec IffProof IffProof2 AiffModel AiffProof IffThm2 AiffThm ChunkTagModel FrameModel FrameWriteModel FrameSaveThm GenericChunkThm.
From Verif Require IffThm IffProof4.
From Verif Require Import FrameThm GenericId3Thm StableThm.

(** Removing is saving an empty tag (C209). *)
Definition undone {E} (save remove : bytes -> res E (list fop)) (data : bytes) : Prop := forall log, save data = Ok log ->
  exists log', remove (apply_log data log) = Ok log' /\ apply_log (apply_log data log) log' = data.

(** ** ID3v1 *)
Theorem C249_id3v1 : forall t lossy lossy' data, v1_is_empty t = false -> file_shape data data false -> undone (fun d => write_id3v1 d t lossy) (fun d => write_id3v1 d v1_empty lossy') data.
Proof.
  intros t lossy lossy' data NE FS log H. pose proof (C17_save data data false t lossy FS) as C. rewrite H in C. destruct C as (C & _ & _). destruct (C NE) as (b & Eb & A). rewrite A.
  assert (FS2 : file_shape (data ++ b) data true). { constructor; [exact (encode_len _ _ _ Eb)|exact (encode_marker _ _ _ Eb)]. }
  pose proof (C17_save _ _ _ v1_empty lossy' FS2) as C2. destruct (write_id3v1 (data ++ b) v1_empty lossy') as [log'|e|].
  - exists log'. split; [reflexivity|]. destruct C2 as (_ & C2 & _). now apply C2.
  - exfalso. destruct lossy'; vm_compute in C2; discriminate C2.
  - contradiction.
Qed.
Print Assumptions C249_id3v1.

(** ** ID3v2 in front of a file *)
Lemma id3_removed : forall w w' window f f' l tag audio, tag_flags_ok (w_v23 w) f -> l <> [] -> create_tag w f l = Ok tag -> lenN tag < 2 ^ 32 -> 3 <= window ->
  exists log, save_id3v2 w' window f' [] (tag ++ audio) = Ok log /\ apply_log (tag ++ audio) log = audio.
Proof.
  intros w w' window f f' l tag audio Ff NE E Hl Hw. destruct (C148_again w window f l tag audio Ff NE E Hl Hw) as (log & S & A).
  unfold save_id3v2 in S. rewrite E in S. unfold save_id3v2. cbn [create_tag]. destruct (find_id3v2 (tag ++ audio) 0 false (Some window)) as [[[h c] pos]| |]; try discriminate S.
  injection S as <-. rewrite ApeThm2.log_apply in A. apply app_inv_head in A. eexists. split; [reflexivity|]. rewrite ApeThm2.log_apply. exact A.
Qed.
Theorem C249_id3v2 : forall w w' window f f' l data, tag_flags_ok (w_v23 w) f -> l <> [] -> 3 <= window -> (forall tag, create_tag w f l = Ok tag -> lenN tag < 2 ^ 32) ->
  (forall p q, takeN window data <> p ++ $"ID3" ++ q) -> undone (save_id3v2 w window f l) (save_id3v2 w' window f' []) data.
Proof.
  intros w w' window f f' l data Ff NE W L N log H. destruct (C148_added w window f l data log N H) as (tag & E & A). rewrite A. exact (id3_removed w w' window f f' l tag data Ff NE E (L tag E) W).
Qed.
Print Assumptions C249_id3v2.

(** ** RIFF INFO *)
Theorem C249_riff : forall m m' cs junk t, Forall chunk_ok cs -> Forall IffProof.list_ok cs -> Forall (fun c => is_info c = false) cs -> riff_ok t ->
  12 + lenN (body false (cs ++ info_chunks t)) < 2 ^ 32 -> undone (fun d => write_riff_info m d t) (fun d => write_riff_info m' d []) (riff_file cs ++ junk).
Proof.
  intros m m' cs junk t OK LO NI TO L log H. assert (L0 : 12 + lenN (body false cs) < 2 ^ 32) by (unfold body in *; rewrite flat_map_app, lenN_app in L; lia).
  destruct (IffThm.C105_new_list m cs junk t OK LO NI TO L0 ltac:(lia)) as (ops & W & A). rewrite H in W. injection W as <-. rewrite A.
  assert (L' : lenN (body false (info_chunks t)) < 2 ^ 32) by (unfold body in *; rewrite flat_map_app, lenN_app in L; lia).
  pose proof (info_chunks_ok t TO L') as IC. pose proof (info_even t) as EV. assert (RN : riff_ok []) by constructor.
  destruct t as [|i t].
  - cbn [info_chunks]. rewrite app_nil_r. destruct (IffThm.C105_new_list m' cs junk [] OK LO NI RN L0) as (ops & W & A2). { cbn [info_chunks]. rewrite app_nil_r. lia. }
    cbn [info_chunks] in A2. rewrite app_nil_r in A2. eauto.
  - cbn [info_chunks] in *. inversion IC; subst.
    destruct (IffThm.C105_list_replaced m' cs ($"LIST", $"INFO" ++ body false (map item_chunk (kept (i :: t)))) [] junk []) as (ops & W & A2); auto.
    + apply Forall_app. auto.
    + apply Forall_app. split; auto. constructor; [|constructor]. intros _. cbn [snd]. rewrite lenN_app. change (lenN ($"INFO")) with 4. lia.
    + apply EV; [exact TO|now left].
    + cbn [info_chunks app]. rewrite app_nil_r. lia.
    + cbn [info_chunks app] in A2. rewrite app_nil_r in A2. eauto.
Qed.
Print Assumptions C249_riff.

(** ** AIFF text *)
Definition no_text : aiff_text := mkAt None None None None None.
Theorem C249_aiff : forall m m' kind t a c b, aiff_kind kind -> AiffProof.text_ok t -> Forall chunk_ok (a ++ c :: b) -> Forall (fun c => not_text c = true) (a ++ c :: b) ->
  fst c = $"COMM" -> Forall (fun c => fst c <> $"COMM") b -> 4 + lenN (body true (a ++ c :: text_chunks t ++ b)) < 2 ^ 32 ->
  undone (fun d => write_aiff_text m d t) (fun d => write_aiff_text m' d no_text) (form_file kind (a ++ c :: b)).
Proof.
  intros m m' kind t a c b K TO OK NT CM NB L log H. destruct (C108_new_text m kind t a c b K TO OK NT CM NB L) as (ops & W & A). rewrite H in W. injection W as <-. rewrite A.
  assert (TN : AiffProof.text_ok no_text) by (repeat split). assert (L0 : 4 + lenN (body true (a ++ c :: b)) < 2 ^ 32).
  { unfold body in *. rewrite !flat_map_app in *. cbn [flat_map] in *. rewrite flat_map_app in L. rewrite !lenN_app in *. lia. }
  pose proof (text_ids t) as TI. assert (CO : Forall chunk_ok (text_chunks t)).
  { apply text_chunks_ok; auto. }
  destruct (text_chunks t) as [|x r] eqn:X.
  - cbn [app]. exact (C108_new_text m' kind no_text a c b K TN OK NT CM NB L0).
  - apply Forall_app in OK as [O1 O2]. inversion O2; subst. apply Forall_app in NT as [N1 N2]. inversion N2; subst. inversion TI; subst. inversion CO; subst.
    assert (F : filter not_text (r ++ b) = b) by (rewrite filter_app, filter_none, filter_id; auto).
    pose proof (C108_text_replaced m' kind no_text (a ++ [c]) x (r ++ b) K TN) as R. rewrite F in R. rewrite <- !app_assoc in R. cbn [app] in *. apply R; auto.
    + apply Forall_app. split; auto. constructor; auto. constructor; auto. apply Forall_app. auto.
    + apply Forall_app. auto.
    + apply Exists_app. right. now left.
Qed.
Print Assumptions C249_aiff.

(** ** ID3 chunks: if nothing follows the chunks, or nothing is left in the place of the removed one *)
Theorem C249_chunk : forall be m m' upper upper' w w' f f' frames magic kind cs junk, id_ok magic -> lenN kind = 4 -> Forall chunk_ok cs -> Forall no_tag cs ->
  (forall tag, create_tag w (without_footer f) frames = Ok tag -> tag <> [] /\ lenN tag < 2 ^ 32 /\ 12 + lenN (body be (cs ++ [(IffProof4.id3_name upper, tag)])) < 2 ^ 32) ->
  be = true \/ w_padding w' = None \/ junk = [] ->
  undone (save_id3_chunk be m upper w f frames) (save_id3_chunk be m' upper' w' f' []) (iff_file be magic kind cs ++ junk).
Proof.
  intros be m m' upper upper' w w' f f' frames magic kind cs junk IM KL OK NT T P log H. unfold save_id3_chunk in *. cbn [create_tag].
  destruct (create_tag w (without_footer f) frames) as [tag| |]; try discriminate H. destruct (T tag eq_refl) as (NE & LT & L).
  destruct (C106_added be upper (match w_padding w with Some _ => true | None => false end) m magic kind tag IM KL NE LT cs junk OK NT L) as (ops & W & A). rewrite H in W. injection W as <-. rewrite A.
  assert (CO : chunk_ok (IffProof4.id3_name upper, tag)) by (split; [apply IffProof4.id3_name_ok|exact LT]).
  destruct (C106_removed be m' upper' (match w_padding w' with Some _ => true | None => false end) magic kind cs (IffProof4.id3_name upper, tag) [] junk IM KL) as (ops & W & A2); auto.
  { apply Forall_app. auto. } { destruct upper; reflexivity. }
  exists ops. split; auto. rewrite A2. replace (negb be && _ && _) with false; [now rewrite app_nil_r|].
  destruct P as [-> | [-> | ->]]; [reflexivity| |]; now rewrite ?andb_false_r.
Qed.
Print Assumptions C249_chunk.

(** ** APE *)
Theorem C249_ape : forall audio v1 t new cover cover' ro, let data := audio ++ v1 in
  64 <= lenN audio -> takeN 3 audio <> $"ID3" -> takeN 8 (dropN 8 audio) <> $"APETAGEX" -> takeN 8 (dropN (lenN audio - 32) audio) <> $"APETAGEX" ->
  Forall ApeProof2.item_ok (ApeModel.at_items t) -> NoDup (map (fun i => lower (ApeModel.ai_key i)) (ApeModel.at_items t)) -> ApeModel.at_items t <> [] -> ApeModel.ape_dump t = Ok new -> lenN new < 2 ^ 32 ->
  ApeThm2.file_end data v1 -> ApeThm2.file_end (audio ++ new ++ v1) v1 ->
  undone (fun d => ApeModel.ape_write d cover true (ApeModel.at_ro t) (ApeModel.at_items t)) (fun d => ApeModel.ape_write d cover' true ro []) data.
Proof.
  intros audio v1 t new cover cover' ro data LA N3 NA NO IO ND NE D LN F1 F2 log H.
  assert (G : forall cv r items out o, ApeModel.create_ape_tag r items = Ok out -> ApeThm2.file_end (audio ++ o ++ v1) v1 -> ApeThm2.old_tag audio o ->
    exists log, ApeModel.ape_write (audio ++ o ++ v1) cv true r items = Ok log /\ apply_log (audio ++ o ++ v1) log = audio ++ out ++ v1).
  { intros cv r items out o C FE OO. apply (ApeThm2.C69_save_partial audio o v1 r items out cv None None 0); auto.
    - rewrite lenN_app. lia.
    - apply no_id3v2; [lia|auto].
    - rewrite !lenN_app. lia.
    - rewrite (dropN_app_le _ 8) by lia. rewrite takeN_app_le by (rewrite lenN_dropN; lia). exact NA. }
  destruct (G cover _ _ new [] D F1 ltac:(left; auto)) as (log1 & W & A). cbn [app] in W, A. unfold data in *. rewrite H in W. injection W as <-. rewrite A.
  destruct (G cover' ro [] [] new eq_refl F2) as (log2 & W2 & A2). { right. split; auto. exists t. auto. } eauto.
Qed.
Print Assumptions C249_ape.

(** ** FLAC without padding *)
Theorem C249_flac : forall pre info l B audio v v' v2 items pics cb, FlacSpec.tag_prefix pre -> FlacSpec.metadata ((0, info) :: l) B -> 34 <= lenN info -> FlacSpec.retained v l v' -> str_ok v' ->
  FlacThm.comment_block v' items cb -> Forall (fun x => lenN (snd (FlacThm.picture_block x)) < 2 ^ 24) pics -> items <> [] \/ pics <> [] -> (forall x, In x l -> fst x <> 4 /\ fst x <> 6) ->
  undone (fun d => FlacModel.flac_write d v items pics None) (fun d => FlacModel.flac_write d v2 [] [] None) (FlacThm.flac_bytes pre B audio).
Proof.
  intros pre info l B audio v v' v2 items pics cb P M I R VO C PS NE NO log H. set (pbs := map FlacThm.picture_block pics) in *.
  destruct (FlacThm.C89_save pre info l B audio v v' items pics None cb P M I R C PS ltac:(tauto)) as (log1 & B1 & pb & W & A & M1 & PB).
  rewrite H in W. injection W as <-. rewrite A. cbn in PB. subst pb. rewrite app_nil_r in M1. fold pbs in M1.
  assert (OL : FlacThm.others l = l).
  { unfold FlacThm.others. clear - NO. induction l as [|x l IH]; auto. cbn [filter]. destruct (NO x (or_introl eq_refl)) as [X Y]. apply N.eqb_neq in X, Y. rewrite X, Y. cbn [orb negb]. rewrite IH; auto. intros; apply NO; now right. }
  rewrite OL in M1. set (l1 := l ++ cb ++ pbs) in *.
  assert (O1 : FlacThm.others l1 = l).
  { unfold l1, FlacThm.others. rewrite !filter_app. fold (FlacThm.others l). fold (FlacThm.others pbs). unfold pbs. rewrite OL, others_pics, app_nil_r.
    destruct C as [[_ ->]|(_ & b & _ & _ & ->)]; cbn [filter fst N.eqb orb negb]; apply app_nil_r. }
  assert (R1 : exists u, FlacSpec.retained v2 l1 u).
  { unfold l1. rewrite <- OL. destruct C as [[-> ->]|(N & b & D & LB & ->)].
    - exists v2. apply retained_others, retained_pics.
    - exists v'. apply retained_others. cbn [app]. eapply FlacSpec.retained_comments; [eapply dump_vendor; eauto|apply retained_pics]. }
  destruct R1 as (u & R1).
  assert (EX : exists x, In x l1 /\ (fst x = 4 \/ fst x = 6)).
  { unfold l1. destruct C as [[-> ->]|(N & b & D & LB & ->)].
    - destruct NE as [NE|NE]; [congruence|]. destruct pics as [|p pics]; [congruence|]. exists (FlacThm.picture_block p). split; [apply in_or_app; right; left; reflexivity|right; reflexivity].
    - exists (4, b). split; [apply in_or_app; right; left; reflexivity|now left]. }
  destruct (FlacThm.C89_save pre info l1 B1 audio v2 u [] [] None [] P M1 I R1 ltac:(left; auto) ltac:(constructor) ltac:(auto)) as (log2 & B2 & pb2 & W2 & A2 & M2 & PB2).
  exists log2. split; auto. rewrite A2. cbn in PB2. subst pb2. cbn [map app] in M2. rewrite app_nil_r, O1 in M2. now rewrite (metadata_unique _ _ _ M M2).
Qed.
Print Assumptions C249_flac.

(** ** Examples and counterexamples *)
Definition undo {E} (save remove : bytes -> res E (list fop)) (data : bytes) : option (bytes * bytes) :=
  match save data with Ok log => let d := apply_log data log in match remove d with Ok log' => Some (d, apply_log d log') | _ => None end | _ => None end.
Definition gone {E} (save remove : bytes -> res E (list fop)) (data : bytes) : bool := match undo save remove data with Some (a, b) => negb (list_eqb a data) && list_eqb b data | None => false end.
Lemma not_undone : forall E (save remove : bytes -> res E (list fop)) data a b, undo save remove data = Some (a, b) -> b <> data -> ~ undone save remove data.
Proof.
  intros E save remove data a b T N S. unfold undo in T. destruct (save data) as [log| |] eqn:W; try discriminate. destruct (S log W) as (log' & W' & A). cbv zeta in T. rewrite W' in T. injection T as <- <-. congruence.
Qed.
Definition flac_bare : bytes := FlacThm.flac_bytes [] ([128; 0; 0; 34] ++ FlacThm.ex_info) [7; 7; 7].
Example C249_ex : gone (fun d => write_id3v1 d v1_a false) (fun d => write_id3v1 d v1_empty false) [1; 2; 3] = true /\
  gone (save_id3v2 w_ex 1024 flags0 frames_ex) (save_id3v2 w_ex 1024 flags0 []) [1; 2; 3] = true /\
  gone (fun d => write_riff_info Strict d [($"INAM", $"A")]) (fun d => write_riff_info Strict d []) (riff_file [($"data", [1; 2]); ($"bext", [0])] ++ [5]) = true /\
  gone (fun d => write_aiff_text Strict d (mkAt (Some ($"A")) None None (Some [$"B"; $"C"]) None)) (fun d => write_aiff_text Strict d no_text) (form_file ($"AIFF") [($"COMM", repeat 0 18); ($"SSND", [66])]) = true /\
  gone (save_id3_chunk false Strict false w_ex flags0 frames_ex) (save_id3_chunk false Strict false w_ex flags0 []) (riff_file [($"data", [1; 2])]) = true /\
  gone (fun d => ApeModel.ape_write d true true false (ApeThm2.one ($"Title") ($"New"))) (fun d => ApeModel.ape_write d true true false []) (ApeThm2.audio_ex ++ ApeThm2.v1_ex) = true /\
  gone (fun d => FlacModel.flac_write d ($"mine") [($"TITLE", $"x")] [] None) (fun d => FlacModel.flac_write d [] [] [] None) flac_bare = true.
Proof. repeat (split; [vm_compute; reflexivity|]). vm_compute. reflexivity. Qed.
(** Finding: in WAV files with bytes after the last chunk a JUNK chunk of the size of the tag stays. *)
Theorem C249_chunk_refuted : exists data, ~ undone (save_id3_chunk false Strict false w_ex flags0 frames_ex) (save_id3_chunk false Strict false w_ex flags0 []) data.
Proof. exists (riff_file [($"data", [1; 2])] ++ [5]). eapply not_undone; [vm_compute; reflexivity|vm_compute; discriminate]. Qed.
(** The padding of FLAC files stays. *)
Theorem C249_flac_refuted : ~ undone (fun d => FlacModel.flac_write d ($"mine") [($"TITLE", $"x")] [] (Some 4)) (fun d => FlacModel.flac_write d [] [] [] (Some 4)) flac_bare.
Proof. eapply not_undone; [vm_compute; reflexivity|vm_compute; discriminate]. Qed.
(** The atoms around the list of an MP4 file stay. *)
Theorem C249_mp4_refuted : exists data, ~ undone (fun d => Mp4WriteModel.mp4_write d [Mp4Ex.nam ($"ab")] Strict None) (fun d => Mp4WriteModel.mp4_write d [] Strict None) data.
Proof. exists (Mp4Spec.encs (Mp4Thm3.bare [Mp4Ex.ftyp_ex] [Mp4Spec.leaf ($"mvhd") [9]] [Mp4Ex.mdat_ex])). eapply not_undone; [vm_compute; reflexivity|vm_compute; discriminate]. Qed.
(** Finding: adding the list does not move the chunk offsets, removing it moves them back; 120 is right before, and 86 is not after both. *)
Definition offs_ex (o : N) (l : list Mp4Spec.box) : list Mp4Spec.box := Mp4Thm3.bare [Mp4Ex.ftyp_ex] (l ++ [Mp4Spec.leaf ($"mvhd") [9]; Mp4Ex.trak_ex (Mp4Ex.stco_ex [o])]) [Mp4Ex.mdat_ex].
Theorem C249_mp4_offsets_refuted : let data := Mp4Spec.encs (offs_ex 120 []) in let out := Mp4Spec.encs (offs_ex 86 [Mp4Spec.node ($"udta") [Mp4Spec.leaf ($"meta") ([0; 0; 0; 0] ++ Mp4Spec.enc Mp4Thm3.HDLR)]]) in
  (exists a, undo (fun d => Mp4WriteModel.mp4_write d [Mp4Ex.nam ($"ab")] Strict None) (fun d => Mp4WriteModel.mp4_write d [] Strict None) data = Some (a, out)) /\
  takeN 5 (dropN 120 data) = [100; 101; 102; 103; 104] /\ takeN 5 (dropN 86 out) <> [100; 101; 102; 103; 104].
Proof. cbv zeta. split; [eexists; vm_compute; reflexivity|]. split; [vm_compute; reflexivity|vm_compute; discriminate]. Qed.
(** Finding: a value of an APE tag is taken for an ID3v1 tag, so that the APE tag is not found. *)
Theorem C249_ape_refuted : exists items, Forall ApeProof2.item_ok items /\ ~ undone (fun d => ApeModel.ape_write d true true false items) (fun d => ApeModel.ape_write d true true false []) ApeThm2.audio_ex.
Proof.
  exists (ApeThm2.one ($"Title") ($"TAG" ++ repeat 65 93)). split. { constructor; [|constructor]. split; [eexists; vm_compute; reflexivity|split; [repeat constructor|cbn; lia]]. }
  eapply not_undone; [vm_compute; reflexivity|vm_compute; discriminate].
Qed.
Print Assumptions C249_chunk_refuted. Print Assumptions C249_flac_refuted. Print Assumptions C249_mp4_refuted. Print Assumptions C249_mp4_offsets_refuted. Print Assumptions C249_ape_refuted.
