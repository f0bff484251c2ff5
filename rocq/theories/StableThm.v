(** C247: saving the same tag a second time changes nothing. OGG files are in C99. *)
From Verif Require Import BaseLemmas StrLemmas Id3v1Model Id3v1Spec Id3v1Proof Id3v1Thm Id3v2HeaderModel Id3v2HeaderThm.
From Verif Require PopmModel Id3v2TagModel Id3v2TagThm2 Id3v2HeaderProof ApeModel ApeProof ApeProof2 VorbisModel TextProof TextModel ApeThm2 FlacModel FlacSpec FlacProof FlacThm Mp4WriteModel Mp4Spec Mp4Ex.
From Verif Require Import IffModel IffSpec IffProof IffProof2 AiffModel AiffProof IffThm2 AiffThm ChunkTagModel FrameModel FrameWriteModel FrameSaveThm GenericChunkThm.
From Verif Require IffThm IffProof4.
From Verif Require Import FrameThm GenericId3Thm.

Definition stable {E} (save : bytes -> res E (list fop)) (data : bytes) : Prop := forall log, save data = Ok log ->
  exists log', save (apply_log data log) = Ok log' /\ apply_log (apply_log data log) log' = apply_log data log.

(** ** ID3v1: any file *)
Theorem C247_id3v1 : forall t lossy data, v1_is_empty t = false -> stable (fun d => write_id3v1 d t lossy) data.
Proof.
  intros t lossy data NE log H. destruct (C17_shape_total data) as (audio & found & FS). pose proof (C17_save data audio found t lossy FS) as C. rewrite H in C. destruct C as (C & _ & _). destruct (C NE) as (b & Eb & A). rewrite A.
  assert (FS2 : file_shape (audio ++ b) audio true). { constructor; [exact (encode_len _ _ _ Eb)|exact (encode_marker _ _ _ Eb)]. }
  pose proof (C17_save _ _ _ t lossy FS2) as C2. destruct (write_id3v1 (audio ++ b) t lossy) as [log'| |] eqn:W; [|congruence|contradiction]. exists log'. split; [reflexivity|].
  destruct C2 as (C2 & _). destruct (C2 NE) as (b' & Eb' & A'). rewrite A'. congruence.
Qed.
Print Assumptions C247_id3v1.
(** ** ID3v2 in front of a file: any file *)
Theorem C247_id3v2 : forall w window f l data, tag_flags_ok (w_v23 w) f -> l <> [] -> 3 <= window -> (forall tag, create_tag w f l = Ok tag -> lenN tag < 2 ^ 32) -> stable (save_id3v2 w window f l) data.
Proof.
  intros w window f l data Ff NE W L log H. unfold save_id3v2 in H. destruct (create_tag w f l) as [tag| |] eqn:E; try discriminate. destruct (find_id3v2 data 0 false (Some window)) as [[[? ?] pos]| |]; try discriminate. injection H as <-.
  rewrite ApeThm2.log_apply. exact (C148_again w window f l tag (dropN pos data) Ff NE E (L tag eq_refl) W).
Qed.
Print Assumptions C247_id3v2.

(** ** RIFF INFO *)
Lemma info_even : forall t c, riff_ok t -> In c (info_chunks t) -> N.even (lenN (snd c)) = true.
Proof.
  intros [|i t] c O I; [destruct I|]. destruct I as [<-|[]]. cbn [snd]. rewrite lenN_app. change (lenN ($"INFO")) with 4. rewrite N.even_add. rewrite body_even; [reflexivity|].
  pose proof (kept_ok _ O) as K. now apply items_ok.
Qed.
Lemma riff_again : forall m a b junk t, t <> [] -> Forall chunk_ok (a ++ b) -> Forall IffProof.list_ok a -> Forall (fun c => is_info c = false) a -> riff_ok t -> 12 + lenN (body false (a ++ info_chunks t ++ b)) < 2 ^ 32 ->
  exists ops, write_riff_info m (riff_file (a ++ info_chunks t ++ b) ++ junk) t = Ok ops /\ apply_log (riff_file (a ++ info_chunks t ++ b) ++ junk) ops = riff_file (a ++ info_chunks t ++ b) ++ junk.
Proof.
  intros m a b junk t NE OK LO NI TO L. assert (L' : lenN (body false (info_chunks t)) < 2 ^ 32) by (unfold body in *; rewrite !flat_map_app, !lenN_app in L; lia).
  pose proof (info_chunks_ok t TO L') as IC. pose proof (info_even t) as EV. destruct t as [|i t]; [contradiction|]. cbn [info_chunks] in *. cbn [app] in *. apply Forall_app in OK as [O1 O2]. inversion IC; subst.
  apply IffThm.C105_list_replaced; auto.
  - apply Forall_app. split; auto.
  - apply Forall_app. split; auto. constructor; [|constructor]. intros _. cbn [snd]. rewrite lenN_app. change (lenN ($"INFO")) with 4. lia.
  - apply EV; [exact TO|now left].
  - cbn [info_chunks app]. lia.
Qed.
Theorem C247_riff : forall m a c b junk t, t <> [] -> Forall chunk_ok (a ++ c ++ b) -> Forall IffProof.list_ok (a ++ c) -> Forall (fun c => is_info c = false) a -> riff_ok t ->
  (c = [] /\ b = [] \/ exists x, c = [x] /\ is_info x = true /\ N.even (lenN (snd x)) = true) ->
  12 + lenN (body false (a ++ c ++ b)) < 2 ^ 32 -> 12 + lenN (body false (a ++ info_chunks t ++ b)) < 2 ^ 32 -> stable (fun d => write_riff_info m d t) (riff_file (a ++ c ++ b) ++ junk).
Proof.
  intros m a c b junk t NE OK LO NI TO C L1 L2 log H.
  assert (A : apply_log (riff_file (a ++ c ++ b) ++ junk) log = riff_file (a ++ info_chunks t ++ b) ++ junk).
  { destruct C as [[-> ->]|(x & -> & IX & EX)].
    - cbn [app] in *. rewrite !app_nil_r in *. destruct (IffThm.C105_new_list m a junk t OK LO NI TO L1 ltac:(lia)) as (ops & W & A). rewrite H in W. injection W as <-. exact A.
    - cbn [app] in *. destruct (IffThm.C105_list_replaced m a x b junk t OK LO NI IX TO EX L1 ltac:(lia)) as (ops & W & A). rewrite H in W. injection W as <-. exact A. }
  rewrite A. apply riff_again; auto.
  - apply Forall_app in OK as [O1 O2]. apply Forall_app in O2 as [_ O2]. apply Forall_app. auto.
  - now apply Forall_app in LO as [LO _].
Qed.
Print Assumptions C247_riff.

(** ** AIFF text *)
Lemma text_ids : forall t, Forall (fun c => is_text_id (fst c) = true) (text_chunks t).
Proof.
  intros [n a c an co]. unfold text_chunks. cbn [at_name at_author at_copy at_anno at_comments]. repeat (apply Forall_app; split).
  - destruct co as [[|x l]|]; repeat constructor.
  - destruct n; repeat constructor.
  - destruct a; repeat constructor.
  - destruct c; repeat constructor.
  - destruct an as [l|]; [|constructor]. apply Forall_map, Forall_forall. intros. reflexivity.
Qed.
Lemma filter_none : forall l, Forall (fun c => is_text_id (fst c) = true) l -> filter not_text l = [].
Proof. induction 1 as [|c l H F IH]; auto. cbn [filter]. unfold not_text at 1. now rewrite H. Qed.
Lemma filter_again : forall l, filter not_text (filter not_text l) = filter not_text l.
Proof. induction l as [|c l IH]; auto. cbn [filter]. destruct (not_text c) eqn:E; cbn [filter]; [rewrite E|]; now rewrite ?IH. Qed.
Lemma filter_plain : forall l, Forall (fun c => not_text c = true) (filter not_text l).
Proof. intro l. apply Forall_forall. intros x I. now apply filter_In in I. Qed.
Lemma filter_chunks : forall l, Forall chunk_ok l -> Forall chunk_ok (filter not_text l).
Proof. intros l F. rewrite Forall_forall in *. intros x I. apply filter_In in I. apply F, I. Qed.
Lemma filter_id : forall l, Forall (fun c => not_text c = true) l -> filter not_text l = l.
Proof. induction 1 as [|c l H F IH]; auto. cbn [filter]. now rewrite H, IH. Qed.
Lemma last_comm : forall (l : list (bytes * bytes)), Exists (fun c => fst c = $"COMM") l -> exists a c b, l = a ++ c :: b /\ fst c = $"COMM" /\ Forall (fun c => fst c <> $"COMM") b.
Proof.
  induction l as [|x l IH] using rev_ind; intro E; [inversion E|]. destruct (list_eq_dec N.eq_dec (fst x) ($"COMM")) as [D|D]; [now exists l, x, []|].
  apply Exists_app in E as [E|E]; [|inversion E; subst; [contradiction|inversion H0]]. destruct (IH E) as (a & c & b & -> & C & F). exists a, c, (b ++ [x]). rewrite <- app_assoc. split; [reflexivity|]. split; auto. apply Forall_app. auto.
Qed.
Lemma aiff_again : forall m kind t a b, aiff_kind kind -> AiffProof.text_ok t -> Forall chunk_ok (a ++ b) -> Forall (fun c => not_text c = true) (a ++ b) -> Exists (fun c => fst c = $"COMM") (a ++ b) ->
  4 + lenN (body true (a ++ text_chunks t ++ b)) < 2 ^ 32 -> saves_text m (form_file kind (a ++ text_chunks t ++ b)) t (form_file kind (a ++ text_chunks t ++ b)).
Proof.
  intros m kind t a b K TO OK NT EX L. pose proof (text_chunks_ok t TO) as TC. pose proof (text_ids t) as TI. destruct (text_chunks t) as [|c r] eqn:ET.
  - cbn [app] in *. destruct (last_comm _ EX) as (a' & c & b' & E & CM & NC). rewrite E in *. pose proof (C108_new_text m kind t a' c b' K TO OK NT CM NC) as S. rewrite ET in S. cbn [app] in S. now apply S.
  - apply Forall_app in OK as [O1 O2]. apply Forall_app in NT as [N1 N2]. inversion TI; subst. pose proof (C108_text_replaced m kind t a c (r ++ b) K TO) as S. cbn [app] in *. rewrite ET in S.
    rewrite filter_app, (filter_none r), (filter_id b) in S by auto. cbn [app] in S. apply S; auto.
    + apply Forall_app. split; auto. inversion TC; subst. constructor; auto. apply Forall_app. auto.
    + apply Exists_app in EX as [EX|EX]; apply Exists_app; [now left|right]. apply Exists_cons_tl. apply Exists_app. now right.
Qed.
Theorem C247_aiff : forall m kind t a c b, aiff_kind kind -> AiffProof.text_ok t -> Forall chunk_ok (a ++ c :: b) -> Forall (fun c => not_text c = true) a ->
  (is_text_id (fst c) = true /\ Exists (fun c => fst c = $"COMM") (a ++ c :: b) /\ 4 + lenN (body true (a ++ text_chunks t ++ filter not_text b)) < 2 ^ 32 \/
   fst c = $"COMM" /\ Forall (fun c => not_text c = true /\ fst c <> $"COMM") b /\ 4 + lenN (body true (a ++ c :: text_chunks t ++ b)) < 2 ^ 32) ->
  stable (fun d => write_aiff_text m d t) (form_file kind (a ++ c :: b)).
Proof.
  intros m kind t a c b K TO OK NT [(IT & EX & L)|(CM & NB & L)] log H.
  - destruct (C108_text_replaced m kind t a c b K TO OK NT IT EX L) as (ops & W & A). rewrite H in W. injection W as <-. rewrite A. apply aiff_again; auto.
    + apply Forall_app in OK as [O1 O2]. inversion O2; subst. apply Forall_app. split; auto using filter_chunks.
    + apply Forall_app. split; auto using filter_plain.
    + apply Exists_app in EX as [EX|EX]; apply Exists_app; [now left|right]. inversion EX as [? ? CM|? ? EB]; subst; [rewrite CM in IT; discriminate IT|].
      apply Exists_exists in EB as (x & I & X). apply Exists_exists. exists x. split; auto. apply filter_In. split; auto. unfold not_text. now rewrite X.
  - destruct (C108_new_text m kind t a c b K TO OK) as (ops & W & A); auto.
    { apply Forall_app. split; auto. constructor; [unfold not_text; now rewrite CM|]. eapply Forall_impl; [|exact NB]. cbn. tauto. } { eapply Forall_impl; [|exact NB]. cbn. tauto. }
    rewrite H in W. injection W as <-. rewrite A. pose proof (aiff_again m kind t (a ++ [c]) b K TO) as S. rewrite <- !app_assoc in S. cbn [app] in S. apply S; auto.
    + apply Forall_app. split; auto. constructor; [unfold not_text; now rewrite CM|]. eapply Forall_impl; [|exact NB]. cbn. tauto.
    + apply Exists_app. right. now left.
Qed.
Print Assumptions C247_aiff.

(** ** ID3 chunks *)
Theorem C247_chunk : forall be m upper w f frames magic kind old junk kept tag, create_tag w (without_footer f) frames = Ok tag -> id_ok magic -> lenN kind = 4 -> tag <> [] -> lenN tag < 2 ^ 32 -> Forall chunk_ok old ->
  replaces be (match w_padding w with Some _ => true | None => false end) (IffProof4.id3_name upper, tag) old junk kept -> 12 + lenN (body be old) < 2 ^ 32 ->
  12 + lenN (body be (kept ++ [(IffProof4.id3_name upper, tag)])) < 2 ^ 32 -> stable (save_id3_chunk be m upper w f frames) (iff_file be magic kind old ++ junk).
Proof.
  intros be m upper w f frames magic kind old junk kept tag D IM KL NE LB OK R L1 L2 log H. unfold save_id3_chunk in *. rewrite D in *.
  destruct (replaces_saves be upper _ m magic kind tag old junk kept IM KL NE LB OK R L1 L2) as (ops & W & A). rewrite H in W. injection W as <-. rewrite A.
  assert (KO : Forall chunk_ok kept). { destruct R; auto; apply Forall_app in OK as [O1 O2]; auto. inversion O2; subst. apply Forall_app. auto. }
  assert (CO : chunk_ok (IffProof4.id3_name upper, tag)) by (split; [apply IffProof4.id3_name_ok|exact LB]).
  apply (replaces_saves be upper _ m magic kind tag (kept ++ [(IffProof4.id3_name upper, tag)]) junk kept); auto; [apply Forall_app; auto|].
  pose proof (replaces_kept _ _ _ _ _ _ R) as NT. assert (IT : IffProof3.id3_id (fst (IffProof4.id3_name upper, tag)) = true) by (destruct upper; reflexivity).
  destruct junk as [|j junk]; [apply rp_last; auto; lia|]. rewrite <- (app_nil_r kept) at 2. apply rp_moved; auto; [now rewrite app_nil_r|right; discriminate|]. right. right. lia.
Qed.
Print Assumptions C247_chunk.

(** ** APE *)
Lemma no_id3v2 : forall audio x, 10 <= lenN audio -> takeN 3 audio <> $"ID3" -> find_id3v2 (audio ++ x) 0 false None = Ok (None, None, 0).
Proof.
  intros audio x L N3. assert (T : takeN 3 (dropN 0 (audio ++ x)) = takeN 3 audio) by (change (dropN 0 (audio ++ x)) with (audio ++ x); apply takeN_app_le; lia).
  pose proof (C53_unchanged_partial (audio ++ x) 0 false ltac:(rewrite lenN_app; lia)) as C. rewrite T in C. specialize (C ltac:(intros; contradiction)).
  destruct (find_id3v2 (audio ++ x) 0 false None) as [[[[h|] c] p]| |]; [contradiction| |contradiction|contradiction]. destruct C as [-> ->]. reflexivity.
Qed.
Theorem C247_ape : forall audio old v1 t new cover, let data := audio ++ old ++ v1 in
  64 <= lenN audio -> takeN 3 audio <> $"ID3" -> takeN 8 (dropN 8 audio) <> $"APETAGEX" -> ApeThm2.old_tag audio old ->
  Forall ApeProof2.item_ok (ApeModel.at_items t) -> NoDup (map (fun i => lower (ApeModel.ai_key i)) (ApeModel.at_items t)) -> ApeModel.at_items t <> [] -> ApeModel.ape_dump t = Ok new -> lenN new < 2 ^ 32 ->
  ApeThm2.file_end data v1 -> ApeThm2.file_end (audio ++ new ++ v1) v1 -> stable (fun d => ApeModel.ape_write d cover true (ApeModel.at_ro t) (ApeModel.at_items t)) data.
Proof.
  intros audio old v1 t new cover data LA N3 NA OT IO ND NE D LN F1 F2 log H.
  assert (G : forall o, ApeThm2.file_end (audio ++ o ++ v1) v1 -> ApeThm2.old_tag audio o -> exists log, ApeModel.ape_write (audio ++ o ++ v1) cover true (ApeModel.at_ro t) (ApeModel.at_items t) = Ok log /\ apply_log (audio ++ o ++ v1) log = audio ++ new ++ v1).
  { intros o FE OO. apply (ApeThm2.C69_save_partial audio o v1 (ApeModel.at_ro t) (ApeModel.at_items t) new cover None None 0); auto.
    - rewrite lenN_app. lia.
    - apply no_id3v2; [lia|auto].
    - rewrite !lenN_app. lia.
    - rewrite (dropN_app_le _ 8) by lia. rewrite takeN_app_le by (rewrite lenN_dropN; lia). exact NA. }
  destruct (G old F1 OT) as (log1 & W & A). unfold data in *. rewrite H in W. injection W as <-. rewrite A. apply G; auto. right. split; auto. exists t. auto.
Qed.
Print Assumptions C247_ape.

(** ** FLAC, if no padding is wanted or there is some *)
Lemma metadata_unique : forall l B B', FlacSpec.metadata l B -> FlacSpec.metadata l B' -> B = B'.
Proof.
  intros l B B' M. revert B'. induction M as [ty c T L|ty c l b T L M IH]; intros B' M'; inversion M' as [? ? ? ? E1 E2|? ? ? b' ? ? M2 E1 E2]; subst; auto; try (inversion M2; fail); try (inversion M; fail). now rewrite (IH _ M2).
Qed.
Lemma others_again : forall l, FlacThm.others (FlacThm.others l) = FlacThm.others l.
Proof. intro l. unfold FlacThm.others. induction l as [|x l IH]; auto. cbn [filter]. destruct (negb _) eqn:E; cbn [filter]; [rewrite E|]; now rewrite ?IH. Qed.
Lemma others_pics : forall ps, FlacThm.others (map FlacThm.picture_block ps) = []. Proof. induction ps; auto. Qed.
Lemma retained_others : forall v l k v', FlacSpec.retained v k v' -> FlacSpec.retained v (FlacThm.others l ++ k) v'.
Proof.
  intros v l k v' R. induction l as [|[ty c] l IH]; [exact R|]. unfold FlacThm.others in *. cbn [filter fst]. destruct (N.eqb_spec ty 4); cbn [orb negb]; auto. destruct (ty =? 6); cbn [negb]; auto. cbn [app]. constructor; auto.
Qed.
Lemma retained_pics : forall v ps, FlacSpec.retained v (map FlacThm.picture_block ps) v.
Proof. intros v ps. induction ps as [|p ps IH]; cbn [map]; constructor; auto. discriminate. Qed.
Lemma dump_vendor : forall v items b, str_ok v -> VorbisModel.vc_dump (VorbisModel.mkVc v items []) = Ok b -> lenN b < 2 ^ 24 -> FlacSpec.vendor_field b v.
Proof.
  intros v items b V D L. unfold VorbisModel.vc_dump, VorbisModel.create_metadata_packet in D. cbn [VorbisModel.vc_items VorbisModel.vc_pics VorbisModel.vc_vendor] in D.
  destruct (VorbisModel.create_comments items) as [cs| |]; try discriminate. cbn [bind VorbisModel.create_pictures] in D. destruct (_ <? _); [discriminate|]. rewrite app_nil_l in D.
  set (r := le_enc 4 _ ++ _) in D. assert (E : b = VorbisModel.vendor_bytes v ++ r) by congruence. unfold VorbisModel.vendor_bytes in E. subst b. rewrite <- app_assoc in *. change (2 ^ 24) with 16777216 in L.
  rewrite lenN_app, lenN_app in L. exists (utf8_enc v), r. change (2 ^ 32) with 4294967296. split; [|split; [lia|now rewrite TextProof.utf8_dec_enc]].
  rewrite N.mod_small by (try change (2 ^ 32) with 4294967296; lia). reflexivity.
Qed.
Theorem C247_flac : forall pre info l B audio v v' items pics pad cb,
  FlacSpec.tag_prefix pre -> FlacSpec.metadata ((0, info) :: l) B -> 34 <= lenN info -> FlacSpec.retained v l v' -> str_ok v' ->
  FlacThm.comment_block v' items cb -> Forall (fun x => lenN (snd (FlacThm.picture_block x)) < 2 ^ 24) pics ->
  pad = None \/ (exists c, In (1, c) l) -> stable (fun d => FlacModel.flac_write d v items pics pad) (FlacThm.flac_bytes pre B audio).
Proof.
  intros pre info l B audio v v' items pics pad cb P M I R VO C PS PD log H. set (pbs := map FlacThm.picture_block pics) in *.
  assert (NP : forall k a b pb, (pad <> None -> exists c, In (1, c) k) -> FlacThm.padding_block pad k a b pb -> pb = []).
  { intros k a b pb X Y. destruct pad as [n|]; [|exact Y]. destruct (X ltac:(discriminate)) as (c & IC). unfold FlacThm.padding_block in Y.
    replace (existsb (fun x => fst x =? 1) k) with true in Y; auto. symmetry. apply existsb_exists. exists (1, c). split; auto. }
  assert (DEC : (items = [] /\ pics = [] /\ (forall x, In x l -> fst x <> 4 /\ fst x <> 6)) \/ (items <> [] \/ pics <> [] \/ exists x, In x l /\ (fst x = 4 \/ fst x = 6))).
  { destruct items; [|right; left; discriminate]. destruct pics; [|right; right; left; discriminate].
    destruct (existsb (fun x => (fst x =? 4) || (fst x =? 6)) l) eqn:X.
    - right. right. right. apply existsb_exists in X. destruct X as (x & A & Y). exists x. split; auto. apply orb_true_iff in Y. destruct Y as [Y|Y]; apply N.eqb_eq in Y; auto.
    - left. split; auto. split; auto. intros x A. assert (Y : (fst x =? 4) || (fst x =? 6) = false).
      { destruct ((fst x =? 4) || (fst x =? 6)) eqn:E; auto. assert (existsb (fun x => (fst x =? 4) || (fst x =? 6)) l = true); [|congruence]. apply existsb_exists. exists x. auto. }
      apply orb_false_iff in Y. destruct Y as [Y1 Y2]. apply N.eqb_neq in Y1, Y2. auto. }
  destruct DEC as [(-> & -> & NO)|DO].
  { rewrite (FlacThm.C89_nothing pre info l B audio v v' pad P M I R NO) in H. injection H as <-. exists []. cbn [apply_log fold_left].
    rewrite (FlacThm.C89_nothing pre info l B audio v v' pad P M I R NO). auto. }
  destruct (FlacThm.C89_save pre info l B audio v v' items pics pad cb P M I R C PS DO) as (log1 & B1 & pb & W & A & M1 & PB).
  rewrite H in W. injection W as <-. rewrite A.
  assert (pb = []) as -> by (eapply NP; [|exact PB]; intro; destruct PD; [congruence|auto]). rewrite app_nil_r in M1. fold pbs in M1.
  set (l1 := FlacThm.others l ++ cb ++ pbs) in *.
  assert (OL : FlacThm.others l1 = FlacThm.others l).
  { unfold l1, FlacThm.others. rewrite !filter_app. fold (FlacThm.others l). fold (FlacThm.others (FlacThm.others l)). fold (FlacThm.others pbs). unfold pbs. rewrite others_again, others_pics, app_nil_r.
    destruct C as [[_ ->]|(_ & b & _ & _ & ->)]; cbn [filter fst N.eqb orb negb]; apply app_nil_r. }
  assert (R1 : exists v1, FlacSpec.retained v l1 v1 /\ FlacThm.comment_block v1 items cb).
  { destruct C as [[-> ->]|(NE & b & D & LB & ->)].
    - exists v. split; [|left; auto]. apply retained_others, retained_pics.
    - exists v'. split; [|right; split; auto; exists b; auto]. apply retained_others. cbn [app]. eapply FlacSpec.retained_comments; [eapply dump_vendor; eauto|apply retained_pics]. }
  destruct R1 as (v1 & R1 & C1).
  assert (DEC2 : (items = [] /\ pics = [] /\ (forall x, In x l1 -> fst x <> 4 /\ fst x <> 6)) \/ (items <> [] \/ pics <> [])).
  { destruct items; [|right; left; discriminate]. destruct pics; [|right; right; discriminate]. left. split; auto. split; auto. unfold l1, pbs. destruct C as [[_ ->]|[X _]]; [|congruence].
    cbn [map app]. rewrite app_nil_r. intros x X. apply filter_In in X. destruct X as [_ X]. apply negb_true_iff, orb_false_iff in X. destruct X as [X Y]. apply N.eqb_neq in X, Y. auto. }
  destruct DEC2 as [(-> & -> & NO)|DO2].
  { exists []. split; auto. eapply FlacThm.C89_nothing; eauto. }
  destruct (FlacThm.C89_save pre info l1 B1 audio v v1 items pics pad cb P M1 I R1 C1 PS ltac:(tauto)) as (log2 & B2 & pb2 & W2 & A2 & M2 & PB2).
  exists log2. split; auto. rewrite A2.
  assert (pb2 = []) as ->.
  { eapply NP; [|exact PB2]. intro. destruct PD as [|(c & IC)]; [congruence|]. exists c. unfold l1. apply in_or_app. left. apply filter_In. auto. }
  rewrite app_nil_r, OL in M2. now rewrite (metadata_unique _ _ _ M1 M2).
Qed.
Print Assumptions C247_flac.

(** ** Examples and counterexamples *)
Definition flags0 : tag_flags := Id3v2TagModel.NO_FLAGS.
Definition frames_ex : list frame := Id3v2TagModel.tag_frames Id3v2TagThm2.id_order PopmModel.DefaultProvider small_ex.
Definition twice {E} (save : bytes -> res E (list fop)) (data : bytes) : option (bytes * bytes) :=
  match save data with Ok log => let d := apply_log data log in match save d with Ok log' => Some (d, apply_log d log') | _ => None end | _ => None end.
Lemma not_stable : forall E (save : bytes -> res E (list fop)) data a b, twice save data = Some (a, b) -> a <> b -> ~ stable save data.
Proof.
  intros E save data a b T N S. unfold twice in T. destruct (save data) as [log| |] eqn:W; try discriminate. destruct (S log W) as (log' & W' & A). cbv zeta in T. rewrite W' in T. injection T as <- <-. congruence.
Qed.
Definition v1_a : id3v1 := mkV1 (Some ($"A")) None None None None None None.
Definition flac_ex : bytes := FlacThm.flac_bytes [] FlacThm.ex_B [7; 7; 7].
Definition mp4_ex (f : list Mp4Spec.box) : bytes := Mp4Spec.encs (Mp4Ex.file_ex [219] ($"ab") f).
Definition changes_once {E} (save : bytes -> res E (list fop)) (data : bytes) : bool := match twice save data with Some (a, b) => negb (list_eqb a data) && list_eqb a b | None => false end.
Example C247_ex : changes_once (fun d => write_id3v1 d v1_a false) [1; 2; 3] = true /\
  changes_once (save_id3v2 w_ex 1024 flags0 frames_ex) [1; 2; 3] = true /\
  changes_once (fun d => write_riff_info Strict d [($"INAM", $"A")]) (riff_file [($"data", [1; 2]); ($"LIST", $"INFO"); ($"bext", [0])]) = true /\
  changes_once (fun d => write_aiff_text Strict d (mkAt (Some ($"A")) None None None None)) (form_file ($"AIFF") [($"NAME", [66]); ($"COMM", repeat 0 18); ($"AUTH", [66])]) = true /\
  changes_once (save_id3_chunk false Strict false w_ex flags0 frames_ex) (riff_file [($"id3 ", [1; 2; 3]); ($"data", [1; 2])]) = true /\
  changes_once (fun d => ApeModel.ape_write d true true false (ApeThm2.one ($"Title") ($"New"))) (ApeThm2.audio_ex ++ ApeThm2.dumped (ApeThm2.one ($"Title") ($"Old")) ++ ApeThm2.v1_ex) = true /\
  changes_once (fun d => FlacModel.flac_write d ($"mine") [($"TITLE", $"x")] [] None) flac_ex = true.
Proof. repeat (split; [vm_compute; reflexivity|]). vm_compute. reflexivity. Qed.
(** the conditions of [C247_ape] *)
Example C247_ape_ex : exists new, ApeModel.ape_dump (ApeModel.mkApeTag false (ApeThm2.one ($"Title") ($"New"))) = Ok new /\ ApeThm2.old_tag ApeThm2.audio_ex (ApeThm2.dumped (ApeThm2.one ($"Title") ($"Old"))) /\
  ApeThm2.file_end (ApeThm2.audio_ex ++ ApeThm2.dumped (ApeThm2.one ($"Title") ($"Old")) ++ ApeThm2.v1_ex) ApeThm2.v1_ex /\ ApeThm2.file_end (ApeThm2.audio_ex ++ new ++ ApeThm2.v1_ex) ApeThm2.v1_ex.
Proof.
  eexists. split; [vm_compute; reflexivity|]. split; [|split; right; split; reflexivity]. right. split; [vm_compute; reflexivity|]. exists (ApeModel.mkApeTag false (ApeThm2.one ($"Title") ($"Old"))).
  split; [constructor; [|constructor]; split; [eexists; vm_compute; reflexivity|split; [repeat constructor|cbn; lia]]|]. split; [constructor; [intros []|constructor]|]. split; [discriminate|vm_compute; reflexivity].
Qed.

(** Finding: saving an empty tag removes the block, saving it again adds an empty one. *)
Theorem C247_id3v1_refuted : exists data, ~ stable (fun d => write_id3v1 d v1_empty false) data.
Proof. exists ([1; 2; 3] ++ ApeThm2.v1_ex). eapply not_stable; [vm_compute; reflexivity|discriminate]. Qed.
(** Finding: of two tags or lists in a file, saving an empty tag removes the first only. *)
Theorem C247_id3v2_refuted : exists data, ~ stable (save_id3v2 w_ex 1024 flags0 []) data.
Proof. exists (Id3v2HeaderProof.hdr_bytes 4 0 0 2 ++ [0; 0] ++ Id3v2HeaderProof.hdr_bytes 4 0 0 2 ++ [0; 0; 7; 7]). eapply not_stable; [vm_compute; reflexivity|discriminate]. Qed.
Theorem C247_riff_refuted : exists data, ~ stable (fun d => write_riff_info Strict d []) data.
Proof. exists (riff_file [($"data", [1; 2]); info_ex; info_ex]). eapply not_stable; [vm_compute; reflexivity|discriminate]. Qed.
(** Finding: a value is taken for an ID3v1 tag, and the next save puts a second tag into the middle of the first. *)
Theorem C247_ape_refuted : exists items, Forall ApeProof2.item_ok items /\ ~ stable (fun d => ApeModel.ape_write d true true false items) ApeThm2.audio_ex.
Proof.
  exists (ApeThm2.one ($"Title") ($"TAG" ++ repeat 65 93)). split. { constructor; [|constructor]. split; [eexists; vm_compute; reflexivity|split; [repeat constructor|cbn; lia]]. }
  eapply not_stable; [vm_compute; reflexivity|discriminate].
Qed.
(** Finding: the new padding goes to the end, and the next save puts the tag after it. *)
Theorem C247_flac_refuted : ~ stable (fun d => FlacModel.flac_write d ($"mine") [($"TITLE", $"x")] [] (Some 4)) flac_ex.
Proof. eapply not_stable; [vm_compute; reflexivity|discriminate]. Qed.
(** Finding: free space after a list that grows is kept, and the next save overwrites it. *)
Theorem C247_mp4_refuted : exists data, ~ stable (fun d => Mp4WriteModel.mp4_write d [Mp4Ex.nam ($"a much longer title than it was")] Strict None) data.
Proof. exists (mp4_ex [Mp4Spec.leaf ($"free") [0; 0; 0; 0]]). eapply not_stable; [vm_compute; reflexivity|discriminate]. Qed.
Print Assumptions C247_id3v1_refuted. Print Assumptions C247_id3v2_refuted. Print Assumptions C247_riff_refuted. Print Assumptions C247_ape_refuted. Print Assumptions C247_flac_refuted. Print Assumptions C247_mp4_refuted.
