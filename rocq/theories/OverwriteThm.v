(** C250: the tag that was saved last decides; what was saved before it leaves no trace. *)
From Verif Require Import BaseLemmas StrLemmas Id3v1Model Id3v1Spec Id3v1Proof Id3v1Thm Id3v2HeaderModel Id3v2HeaderThm.
From Verif Require PopmModel Id3v2TagModel Id3v2TagThm2 Id3v2HeaderProof ApeModel ApeProof ApeProof2 VorbisModel TextProof TextModel ApeThm2 FlacModel FlacSpec FlacProof FlacThm Mp4WriteModel Mp4Spec Mp4Ex.
From Verif Require Import IffModel IffSpec IffProof IffProof2 AiffModel AiffProof IffThm2 AiffThm ChunkTagModel FrameModel FrameWriteModel FrameSaveThm GenericChunkThm.
From Verif Require IffThm IffProof4.
From Verif Require Import FrameThm GenericId3Thm StableThm.

(** Saving one tag and then another gives the file that saving the other gives. *)
Definition overwritten {E} (first second : bytes -> res E (list fop)) (data : bytes) : Prop := forall log1 log2, first data = Ok log1 -> second data = Ok log2 ->
  exists log3, second (apply_log data log1) = Ok log3 /\ apply_log (apply_log data log1) log3 = apply_log data log2.

(** ** ID3v1: any file *)
Theorem C250_id3v1 : forall t1 t2 lossy1 lossy2 data, v1_is_empty t1 = false -> v1_is_empty t2 = false -> overwritten (fun d => write_id3v1 d t1 lossy1) (fun d => write_id3v1 d t2 lossy2) data.
Proof.
  intros t1 t2 lossy1 lossy2 data N1 N2 log1 log2 H1 H2. destruct (C17_shape_total data) as (audio & found & FS).
  pose proof (C17_save data audio found t1 lossy1 FS) as C. rewrite H1 in C. destruct C as (C & _). destruct (C N1) as (b & Eb & A). rewrite A.
  pose proof (C17_save data audio found t2 lossy2 FS) as D. rewrite H2 in D. destruct D as (D & _). destruct (D N2) as (b2 & Eb2 & A2). rewrite A2.
  assert (FS2 : file_shape (audio ++ b) audio true). { constructor; [exact (encode_len _ _ _ Eb)|exact (encode_marker _ _ _ Eb)]. }
  pose proof (C17_save _ _ _ t2 lossy2 FS2) as C2. destruct (write_id3v1 (audio ++ b) t2 lossy2) as [log'|e|]; [|congruence|contradiction]. exists log'. split; [reflexivity|].
  destruct C2 as (C2 & _). destruct (C2 N2) as (b' & Eb' & A'). rewrite A'. congruence.
Qed.
Print Assumptions C250_id3v1.

(** ** ID3v2 in front of a file: any file; the second tag may be empty *)
Theorem C250_id3v2 : forall w1 w2 window f1 f2 l1 l2 data, tag_flags_ok (w_v23 w1) f1 -> l1 <> [] -> 3 <= window -> (forall tag, create_tag w1 f1 l1 = Ok tag -> lenN tag < 2 ^ 32) ->
  overwritten (save_id3v2 w1 window f1 l1) (save_id3v2 w2 window f2 l2) data.
Proof.
  intros w1 w2 window f1 f2 l1 l2 data Ff NE W L log1 log2 H1 H2. unfold save_id3v2 in H1, H2. destruct (create_tag w1 f1 l1) as [tag| |] eqn:E; try discriminate. destruct (create_tag w2 f2 l2) as [tag2| |] eqn:E2; try discriminate.
  destruct (find_id3v2 data 0 false (Some window)) as [[[? ?] pos]| |]; try discriminate. injection H1 as <-. injection H2 as <-. rewrite !ApeThm2.log_apply.
  destruct (C148_again w1 window f1 l1 tag (dropN pos data) Ff NE E (L tag eq_refl) W) as (log & S & A). unfold save_id3v2 in S. rewrite E in S. unfold save_id3v2. rewrite E2.
  destruct (find_id3v2 (tag ++ dropN pos data) 0 false (Some window)) as [[[h c] p]| |]; try discriminate S.
  injection S as <-. rewrite ApeThm2.log_apply in A. apply app_inv_head in A. eexists. split; [reflexivity|]. rewrite ApeThm2.log_apply. now rewrite A.
Qed.
Print Assumptions C250_id3v2.

(** ** RIFF INFO *)
Lemma riff_over : forall m a b junk t t2, t <> [] -> Forall chunk_ok (a ++ b) -> Forall IffProof.list_ok a -> Forall (fun c => is_info c = false) a -> riff_ok t -> riff_ok t2 ->
  12 + lenN (body false (a ++ info_chunks t ++ b)) < 2 ^ 32 -> 12 + lenN (body false (a ++ info_chunks t2 ++ b)) < 2 ^ 32 ->
  exists ops, write_riff_info m (riff_file (a ++ info_chunks t ++ b) ++ junk) t2 = Ok ops /\ apply_log (riff_file (a ++ info_chunks t ++ b) ++ junk) ops = riff_file (a ++ info_chunks t2 ++ b) ++ junk.
Proof.
  intros m a b junk t t2 NE OK LO NI TO TO2 L L2. assert (L' : lenN (body false (info_chunks t)) < 2 ^ 32) by (unfold body in *; rewrite !flat_map_app, !lenN_app in L; lia).
  pose proof (info_chunks_ok t TO L') as IC. pose proof (info_even t) as EV. destruct t as [|i t]; [contradiction|]. remember (info_chunks t2) as i2. cbn [info_chunks] in *. cbn [app] in *. apply Forall_app in OK as [O1 O2]. inversion IC; subst.
  apply IffThm.C105_list_replaced; auto.
  - apply Forall_app. split; auto.
  - apply Forall_app. split; auto. constructor; [|constructor]. intros _. cbn [snd]. rewrite lenN_app. change (lenN ($"INFO")) with 4. lia.
  - apply EV; [exact TO|now left].
  - lia.
Qed.
Theorem C250_riff : forall m a c b junk t1 t2, t1 <> [] -> Forall chunk_ok (a ++ c ++ b) -> Forall IffProof.list_ok (a ++ c) -> Forall (fun c => is_info c = false) a -> riff_ok t1 -> riff_ok t2 ->
  (c = [] /\ b = [] \/ exists x, c = [x] /\ is_info x = true /\ N.even (lenN (snd x)) = true) ->
  12 + lenN (body false (a ++ c ++ b)) < 2 ^ 32 -> 12 + lenN (body false (a ++ info_chunks t1 ++ b)) < 2 ^ 32 -> 12 + lenN (body false (a ++ info_chunks t2 ++ b)) < 2 ^ 32 ->
  overwritten (fun d => write_riff_info m d t1) (fun d => write_riff_info m d t2) (riff_file (a ++ c ++ b) ++ junk).
Proof.
  intros m a c b junk t1 t2 NE OK LO NI T1 T2 C L0 L1 L2 log1 log2 H1 H2.
  assert (A : forall t log, riff_ok t -> 12 + lenN (body false (a ++ info_chunks t ++ b)) < 2 ^ 32 -> write_riff_info m (riff_file (a ++ c ++ b) ++ junk) t = Ok log -> apply_log (riff_file (a ++ c ++ b) ++ junk) log = riff_file (a ++ info_chunks t ++ b) ++ junk).
  { intros t log TO L H. destruct C as [[-> ->]|(x & -> & IX & EX)].
    - cbn [app] in *. rewrite !app_nil_r in *. destruct (IffThm.C105_new_list m a junk t OK LO NI TO L0 ltac:(lia)) as (ops & W & A). rewrite H in W. injection W as <-. exact A.
    - cbn [app] in *. destruct (IffThm.C105_list_replaced m a x b junk t OK LO NI IX TO EX L0 ltac:(lia)) as (ops & W & A). rewrite H in W. injection W as <-. exact A. }
  rewrite (A t1 log1 T1 L1 H1), (A t2 log2 T2 L2 H2). apply riff_over; auto.
  - apply Forall_app in OK as [O1 O2]. apply Forall_app in O2 as [_ O2]. apply Forall_app. auto.
  - now apply Forall_app in LO as [LO _].
Qed.
Print Assumptions C250_riff.

(** ** AIFF text *)
Lemma aiff_over : forall m kind t t2 a b, aiff_kind kind -> AiffProof.text_ok t -> AiffProof.text_ok t2 -> text_chunks t <> [] -> Forall chunk_ok (a ++ b) -> Forall (fun c => not_text c = true) (a ++ b) -> Exists (fun c => fst c = $"COMM") (a ++ b) ->
  4 + lenN (body true (a ++ text_chunks t2 ++ b)) < 2 ^ 32 -> saves_text m (form_file kind (a ++ text_chunks t ++ b)) t2 (form_file kind (a ++ text_chunks t2 ++ b)).
Proof.
  intros m kind t t2 a b K TO TO2 NE OK NT EX L. pose proof (text_chunks_ok t TO) as TC. pose proof (text_ids t) as TI. destruct (text_chunks t) as [|c r] eqn:ET; [contradiction|].
  apply Forall_app in OK as [O1 O2]. apply Forall_app in NT as [N1 N2]. inversion TI; subst. pose proof (C108_text_replaced m kind t2 a c (r ++ b) K TO2) as S. cbn [app] in *.
  rewrite filter_app, (filter_none r), (filter_id b) in S by auto. cbn [app] in S. apply S; auto.
  - apply Forall_app. split; auto. inversion TC; subst. constructor; auto. apply Forall_app. auto.
  - apply Exists_app in EX as [EX|EX]; apply Exists_app; [now left|right]. apply Exists_cons_tl. apply Exists_app. now right.
Qed.
Theorem C250_aiff : forall m kind t1 t2 a c b, aiff_kind kind -> AiffProof.text_ok t1 -> AiffProof.text_ok t2 -> text_chunks t1 <> [] -> Forall chunk_ok (a ++ c :: b) -> Forall (fun c => not_text c = true) a ->
  (is_text_id (fst c) = true /\ Exists (fun c => fst c = $"COMM") (a ++ c :: b) /\ (forall t, t = t1 \/ t = t2 -> 4 + lenN (body true (a ++ text_chunks t ++ filter not_text b)) < 2 ^ 32) \/
   fst c = $"COMM" /\ Forall (fun c => not_text c = true /\ fst c <> $"COMM") b /\ (forall t, t = t1 \/ t = t2 -> 4 + lenN (body true (a ++ c :: text_chunks t ++ b)) < 2 ^ 32)) ->
  overwritten (fun d => write_aiff_text m d t1) (fun d => write_aiff_text m d t2) (form_file kind (a ++ c :: b)).
Proof.
  intros m kind t1 t2 a c b K T1 T2 NE OK NT [(IT & EX & L)|(CM & NB & L)] log1 log2 H1 H2.
  - destruct (C108_text_replaced m kind t1 a c b K T1 OK NT IT EX (L _ (or_introl eq_refl))) as (ops & W & A). rewrite H1 in W. injection W as <-. rewrite A.
    destruct (C108_text_replaced m kind t2 a c b K T2 OK NT IT EX (L _ (or_intror eq_refl))) as (ops & W & A2). rewrite H2 in W. injection W as <-. rewrite A2. apply aiff_over; auto.
    + apply Forall_app in OK as [O1 O2]. inversion O2; subst. apply Forall_app. split; auto using filter_chunks.
    + apply Forall_app. split; auto using filter_plain.
    + apply Exists_app in EX as [EX|EX]; apply Exists_app; [now left|right]. inversion EX as [? ? CM|? ? EB]; subst; [rewrite CM in IT; discriminate IT|].
      apply Exists_exists in EB as (x & I & X). apply Exists_exists. exists x. split; auto. apply filter_In. split; auto. unfold not_text. now rewrite X.
  - assert (N0 : Forall (fun c => not_text c = true) (a ++ c :: b)). { apply Forall_app. split; auto. constructor; [unfold not_text; now rewrite CM|]. eapply Forall_impl; [|exact NB]. cbn. tauto. }
    assert (NC : Forall (fun c => fst c <> $"COMM") b) by (eapply Forall_impl; [|exact NB]; cbn; tauto).
    destruct (C108_new_text m kind t1 a c b K T1 OK N0 CM NC (L _ (or_introl eq_refl))) as (ops & W & A). rewrite H1 in W. injection W as <-. rewrite A.
    destruct (C108_new_text m kind t2 a c b K T2 OK N0 CM NC (L _ (or_intror eq_refl))) as (ops & W & A2). rewrite H2 in W. injection W as <-. rewrite A2.
    pose proof (aiff_over m kind t1 t2 (a ++ [c]) b K T1 T2 NE) as S. rewrite <- !app_assoc in S. cbn [app] in S. apply S; auto. apply Exists_app. right. now left.
Qed.
Print Assumptions C250_aiff.

(** ** ID3 chunks: the second tag is not larger, or something follows the chunks *)
Theorem C250_chunk : forall be m upper w f frames1 frames2 magic kind old junk kept tag1 tag2,
  create_tag w (without_footer f) frames1 = Ok tag1 -> create_tag w (without_footer f) frames2 = Ok tag2 -> id_ok magic -> lenN kind = 4 -> tag1 <> [] -> tag2 <> [] -> lenN tag1 < 2 ^ 32 -> lenN tag2 < 2 ^ 32 -> Forall chunk_ok old ->
  let padding := match w_padding w with Some _ => true | None => false end in let new1 := (IffProof4.id3_name upper, tag1) in let new2 := (IffProof4.id3_name upper, tag2) in
  replaces be padding new1 old junk kept -> replaces be padding new2 old junk kept -> replaces be padding new2 (kept ++ [new1]) junk kept -> 12 + lenN (body be old) < 2 ^ 32 ->
  12 + lenN (body be (kept ++ [new1])) < 2 ^ 32 -> 12 + lenN (body be (kept ++ [new2])) < 2 ^ 32 ->
  overwritten (save_id3_chunk be m upper w f frames1) (save_id3_chunk be m upper w f frames2) (iff_file be magic kind old ++ junk).
Proof.
  intros be m upper w f frames1 frames2 magic kind old junk kept tag1 tag2 D1 D2 IM KL NE1 NE2 LB1 LB2 OK padding new1 new2 R1 R2 R3 L0 L1 L2 log1 log2 H1 H2. unfold save_id3_chunk in *. rewrite D1 in H1. rewrite D2 in *.
  destruct (replaces_saves be upper padding m magic kind tag1 old junk kept IM KL NE1 LB1 OK R1 L0 L1) as (ops & W & A). unfold padding in W. rewrite H1 in W. injection W as <-. rewrite A.
  destruct (replaces_saves be upper padding m magic kind tag2 old junk kept IM KL NE2 LB2 OK R2 L0 L2) as (ops & W & A2). unfold padding in W. rewrite H2 in W. injection W as <-. rewrite A2.
  assert (KO : Forall chunk_ok kept). { destruct R1; auto; apply Forall_app in OK as [O1 O2]; auto. inversion O2; subst. apply Forall_app. auto. }
  assert (CO : chunk_ok new1) by (split; [apply IffProof4.id3_name_ok|exact LB1]).
  apply (replaces_saves be upper padding m magic kind tag2 (kept ++ [new1]) junk kept); auto. apply Forall_app. auto.
Qed.
Lemma again_last : forall be padding upper tag1 tag2 kept, Forall no_tag kept -> lenN (chunk_bytes be (IffProof4.id3_name upper, tag2)) <= lenN (chunk_bytes be (IffProof4.id3_name upper, tag1)) ->
  replaces be padding (IffProof4.id3_name upper, tag2) (kept ++ [(IffProof4.id3_name upper, tag1)]) [] kept.
Proof. intros. apply rp_last; auto. destruct upper; reflexivity. Qed.
Print Assumptions C250_chunk.

(** ** APE *)
Theorem C250_ape : forall audio old v1 t1 t2 new1 new2 cover, let data := audio ++ old ++ v1 in
  64 <= lenN audio -> takeN 3 audio <> $"ID3" -> takeN 8 (dropN 8 audio) <> $"APETAGEX" -> ApeThm2.old_tag audio old ->
  Forall ApeProof2.item_ok (ApeModel.at_items t1) -> NoDup (map (fun i => lower (ApeModel.ai_key i)) (ApeModel.at_items t1)) -> ApeModel.at_items t1 <> [] -> ApeModel.ape_dump t1 = Ok new1 -> lenN new1 < 2 ^ 32 -> ApeModel.ape_dump t2 = Ok new2 ->
  ApeThm2.file_end data v1 -> ApeThm2.file_end (audio ++ new1 ++ v1) v1 ->
  overwritten (fun d => ApeModel.ape_write d cover true (ApeModel.at_ro t1) (ApeModel.at_items t1)) (fun d => ApeModel.ape_write d cover true (ApeModel.at_ro t2) (ApeModel.at_items t2)) data.
Proof.
  intros audio old v1 t1 t2 new1 new2 cover data LA N3 NA OT IO ND NE D1 LN D2 F1 F2 log1 log2 H1 H2.
  assert (G : forall t new o, ApeModel.ape_dump t = Ok new -> ApeThm2.file_end (audio ++ o ++ v1) v1 -> ApeThm2.old_tag audio o ->
    exists log, ApeModel.ape_write (audio ++ o ++ v1) cover true (ApeModel.at_ro t) (ApeModel.at_items t) = Ok log /\ apply_log (audio ++ o ++ v1) log = audio ++ new ++ v1).
  { intros t new o C FE OO. apply (ApeThm2.C69_save_partial audio o v1 (ApeModel.at_ro t) (ApeModel.at_items t) new cover None None 0); auto.
    - rewrite lenN_app. lia.
    - apply no_id3v2; [lia|auto].
    - rewrite !lenN_app. lia.
    - rewrite (dropN_app_le _ 8) by lia. rewrite takeN_app_le by (rewrite lenN_dropN; lia). exact NA. }
  unfold data in *. destruct (G t1 new1 old D1 F1 OT) as (l1 & W1 & A1). rewrite H1 in W1. injection W1 as <-. rewrite A1. destruct (G t2 new2 old D2 F1 OT) as (l2 & W2 & A2). rewrite H2 in W2. injection W2 as <-. rewrite A2.
  apply G; auto. right. split; auto. exists t1. auto.
Qed.
Print Assumptions C250_ape.

(** ** FLAC: the first tag has comments, and no padding is added *)
Theorem C250_flac : forall pre info l B audio v1 v2 v' items1 items2 pics1 pics2 pad cb1 cb2,
  FlacSpec.tag_prefix pre -> FlacSpec.metadata ((0, info) :: l) B -> 34 <= lenN info -> FlacSpec.retained v1 l v' -> FlacSpec.retained v2 l v' -> str_ok v' ->
  FlacThm.comment_block v' items1 cb1 -> FlacThm.comment_block v' items2 cb2 -> Forall (fun x => lenN (snd (FlacThm.picture_block x)) < 2 ^ 24) (pics1 ++ pics2) -> items1 <> [] -> items2 <> [] \/ pics2 <> [] ->
  pad = None \/ (exists c, In (1, c) l) -> overwritten (fun d => FlacModel.flac_write d v1 items1 pics1 pad) (fun d => FlacModel.flac_write d v2 items2 pics2 pad) (FlacThm.flac_bytes pre B audio).
Proof.
  intros pre info l B audio v1 v2 v' items1 items2 pics1 pics2 pad cb1 cb2 P M I R1 R2 VO C1 C2 PS NE1 NE2 PD log1 log2 H1 H2. apply Forall_app in PS as [PS1 PS2].
  assert (NP : forall k a b pb, (pad <> None -> exists c, In (1, c) k) -> FlacThm.padding_block pad k a b pb -> pb = []).
  { intros k a b pb X Y. destruct pad as [n|]; [|exact Y]. destruct (X ltac:(discriminate)) as (c & IC). unfold FlacThm.padding_block in Y.
    replace (existsb (fun x => fst x =? 1) k) with true in Y; auto. symmetry. apply existsb_exists. exists (1, c). split; auto. }
  destruct (FlacThm.C89_save pre info l B audio v1 v' items1 pics1 pad cb1 P M I R1 C1 PS1 ltac:(tauto)) as (lg1 & B1 & pb1 & W1 & A1 & M1 & PB1). rewrite H1 in W1. injection W1 as <-. rewrite A1.
  destruct (FlacThm.C89_save pre info l B audio v2 v' items2 pics2 pad cb2 P M I R2 C2 PS2 ltac:(tauto)) as (lg2 & B2 & pb2 & W2 & A2 & M2 & PB2). rewrite H2 in W2. injection W2 as <-. rewrite A2.
  assert (pb1 = []) as -> by (eapply NP; [|exact PB1]; intro; destruct PD; [congruence|auto]). assert (pb2 = []) as -> by (eapply NP; [|exact PB2]; intro; destruct PD; [congruence|auto]).
  rewrite app_nil_r in M1, M2. set (l1 := FlacThm.others l ++ cb1 ++ map FlacThm.picture_block pics1) in *. destruct C1 as [[X _]|(_ & b & D & LB & EC)]; [congruence|].
  assert (OL : FlacThm.others l1 = FlacThm.others l).
  { unfold l1, FlacThm.others. rewrite !filter_app. fold (FlacThm.others l). fold (FlacThm.others (FlacThm.others l)). fold (FlacThm.others (map FlacThm.picture_block pics1)). rewrite others_again, others_pics, app_nil_r, EC.
    cbn [filter fst N.eqb orb negb]. apply app_nil_r. }
  assert (R3 : FlacSpec.retained v2 l1 v').
  { unfold l1. apply retained_others. rewrite EC. cbn [app]. eapply FlacSpec.retained_comments; [eapply dump_vendor; eauto|apply retained_pics]. }
  destruct (FlacThm.C89_save pre info l1 B1 audio v2 v' items2 pics2 pad cb2 P M1 I R3 C2 PS2 ltac:(tauto)) as (lg3 & B3 & pb3 & W3 & A3 & M3 & PB3).
  exists lg3. split; auto. rewrite A3.
  assert (pb3 = []) as ->.
  { eapply NP; [|exact PB3]. intro. destruct PD as [|(c & IC)]; [congruence|]. exists c. unfold l1. apply in_or_app. left. apply filter_In. auto. }
  rewrite app_nil_r, OL in M3. now rewrite (metadata_unique _ _ _ M2 M3).
Qed.
Print Assumptions C250_flac.

(** ** Examples and counterexamples *)
Definition both {E} (first second : bytes -> res E (list fop)) (data : bytes) : option (bytes * bytes * bytes) :=
  match first data, second data with
  | Ok l1, Ok l2 => let d := apply_log data l1 in match second d with Ok l3 => Some (d, apply_log d l3, apply_log data l2) | _ => None end
  | _, _ => None end.
Definition last_wins {E} (first second : bytes -> res E (list fop)) (data : bytes) : bool :=
  match both first second data with Some (d, x, y) => negb (list_eqb d x) && negb (list_eqb d data) && list_eqb x y | None => false end.
Lemma not_over : forall E (first second : bytes -> res E (list fop)) data d x y, both first second data = Some (d, x, y) -> x <> y -> ~ overwritten first second data.
Proof.
  intros E first second data d x y T N S. unfold both in T. destruct (first data) as [l1| |] eqn:W1; try discriminate. destruct (second data) as [l2| |] eqn:W2; try discriminate.
  destruct (S l1 l2 W1 W2) as (l3 & W3 & A). cbv zeta in T. rewrite W3 in T. injection T as <- <- <-. congruence.
Qed.
Definition v1_b : id3v1 := mkV1 (Some ($"BB")) None None None None None None.
Example C250_ex : last_wins (fun d => write_id3v1 d v1_a false) (fun d => write_id3v1 d v1_b false) [1; 2; 3] = true /\
  last_wins (save_id3v2 w_ex 1024 flags0 frames_ex) (save_id3v2 w_ex 1024 flags0 []) (Id3v2HeaderProof.hdr_bytes 4 0 0 2 ++ [0; 0; 7; 7]) = true /\
  last_wins (fun d => write_riff_info Strict d [($"INAM", $"A")]) (fun d => write_riff_info Strict d [($"IART", $"longer")]) (riff_file [($"data", [1; 2]); ($"LIST", $"INFO"); ($"bext", [0])]) = true /\
  last_wins (fun d => write_aiff_text Strict d (mkAt (Some ($"A")) None None None None)) (fun d => write_aiff_text Strict d (mkAt None (Some ($"B")) None None None)) (form_file ($"AIFF") [($"NAME", [66]); ($"COMM", repeat 0 18); ($"AUTH", [66])]) = true /\
  last_wins (fun d => ApeModel.ape_write d true true false (ApeThm2.one ($"Title") ($"New"))) (fun d => ApeModel.ape_write d true true false (ApeThm2.one ($"Artist") ($"X"))) (ApeThm2.audio_ex ++ ApeThm2.dumped (ApeThm2.one ($"Title") ($"Old")) ++ ApeThm2.v1_ex) = true /\
  last_wins (fun d => FlacModel.flac_write d ($"mine") [($"TITLE", $"x")] [] None) (fun d => FlacModel.flac_write d ($"mine") [($"ARTIST", $"y")] [] None) flac_ex = true.
Proof. repeat (split; [vm_compute; reflexivity|]). vm_compute. reflexivity. Qed.
(** The vendor of the first tag stays in a FLAC file that had no comments. *)
Theorem C250_flac_refuted : exists data, ~ overwritten (fun d => FlacModel.flac_write d ($"one") [($"TITLE", $"x")] [] None) (fun d => FlacModel.flac_write d ($"two") [($"TITLE", $"x")] [] None) data.
Proof. exists (FlacThm.flac_bytes [] ([128; 0; 0; 34] ++ FlacThm.ex_info) [7; 7; 7]). eapply not_over; [vm_compute; reflexivity|vm_compute; discriminate]. Qed.
(** Finding: free space in an MP4 file that the first tag used up is not given back. *)
Theorem C250_mp4_refuted : exists data, ~ overwritten (fun d => Mp4WriteModel.mp4_write d [Mp4Ex.nam ($"a much longer title than it was")] Strict None) (fun d => Mp4WriteModel.mp4_write d [Mp4Ex.nam ($"ab")] Strict None) data.
Proof. exists (mp4_ex [Mp4Spec.leaf ($"free") [0; 0; 0; 0]]). eapply not_over; [vm_compute; reflexivity|vm_compute; discriminate]. Qed.
(** An ID3v1 tag that is empty is written if there was none, and so is not the same after a first tag. *)
Theorem C250_id3v1_refuted : exists data, ~ overwritten (fun d => write_id3v1 d v1_a false) (fun d => write_id3v1 d v1_empty false) data.
Proof. exists [1; 2; 3]. eapply not_over; [vm_compute; reflexivity|vm_compute; discriminate]. Qed.
(** An INFO list that is emptied and then added is at the end. *)
Theorem C250_riff_refuted : exists data, ~ overwritten (fun d => write_riff_info Strict d []) (fun d => write_riff_info Strict d [($"INAM", $"A")]) data.
Proof. exists (riff_file [($"LIST", $"INFO"); ($"data", [1; 2])]). eapply not_over; [vm_compute; reflexivity|vm_compute; discriminate]. Qed.
(** Finding: the size field of a file whose last chunk is a smaller ID3 chunk is wrong after the second tag (C106). *)
Theorem C250_chunk_refuted : exists data, ~ overwritten (fun d => write_id3_chunk false Strict false false d [6; 6]) (fun d => write_id3_chunk false Strict false false d [6; 6; 6; 6; 6; 6]) data.
Proof. exists (riff_file [($"data", [1; 2])]). eapply not_over; [vm_compute; reflexivity|vm_compute; discriminate]. Qed.
Print Assumptions C250_flac_refuted. Print Assumptions C250_mp4_refuted. Print Assumptions C250_id3v1_refuted. Print Assumptions C250_riff_refuted. Print Assumptions C250_chunk_refuted.
