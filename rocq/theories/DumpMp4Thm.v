(** C244 for MP4 (mp4/ilst/ref.rs 41-50: the dumped bytes are the encoded list) and for Vorbis comments in FLAC files (ogg/tag.rs 722-730). *)
From Verif Require Import Base BaseLemmas Str StrLemmas TextModel Mode PictureModel FileModel VorbisModel FlacModel FlacSpec FlacThm.
From Verif Require Import Mp4Model Mp4WriteModel Mp4Spec Mp4Proof Mp4Proof5 Mp4Proof7 Mp4Ex Mp4Thm2 Mp4Thm3.
From Verif Require DumpThm.

Definition ilst_dump : list atom -> res mp4_error bytes := build_ilst.
Notation holds := DumpThm.holds.
Lemma holds_here : forall part p q, holds part (p ++ part ++ q). Proof. intros. now exists p, q. Qed.
Lemma holds_l : forall part a whole, holds part whole -> holds part (a ++ whole).
Proof. intros part a whole (p & q & ->). exists (a ++ p), q. now rewrite <- !app_assoc. Qed.
Lemma holds_r : forall part whole c, holds part whole -> holds part (whole ++ c).
Proof. intros part whole c (p & q & ->). exists p, (q ++ c). now rewrite <- !app_assoc. Qed.
Lemma in_lay : forall part pre S k1 U u1 M body u2 k2 post, holds part body -> holds part (lay pre S k1 U u1 M body u2 k2 post).
Proof. intros part pre S k1 U u1 M body u2 k2 post H. unfold lay. do 9 apply holds_l. apply holds_r. exact H. Qed.
Lemma in_file : forall part pre k1 u1 meta u2 k2 post, holds part meta -> holds part (encs (mp4_file pre k1 u1 meta u2 k2 post)).
Proof. intros part pre k1 u1 meta u2 k2 post H. rewrite file_lay. apply in_lay. exact H. Qed.
(** The list that is replaced *)
Theorem C244_mp4 : forall pre k1 u1 vers a0 f1 old f2 b0 u2 k2 post tag m padding b log,
  saveable pre k1 u1 vers a0 f1 old f2 b0 u2 k2 post -> ilst_dump tag = Ok b -> padding_ok padding ->
  let top := mp4_file pre k1 u1 (vers ++ encs (a0 ++ f1 ++ old :: f2 ++ b0)) u2 k2 post in
  lenN (encs top) + lenN b + max_pad padding < 2 ^ 32 -> mp4_write (encs top) tag m padding = Ok log -> holds b (apply_log (encs top) log).
Proof.
  intros pre k1 u1 vers a0 f1 old f2 b0 u2 k2 post tag m padding b log HS HI HP top HL HW.
  destruct (C116_saved _ _ _ _ _ _ _ _ _ _ _ _ tag m padding b HS HI HP HL) as (kids' & d & upto & HK & E). cbv zeta in E. fold top in E. rewrite HW in E. injection E as ->.
  rewrite rewritten. apply in_file. destruct HK as [->| | | | |]; [now exists [], (vers ++ encs a0 ++ encs f1 ++ encs f2 ++ encs b0)|..]; rewrite app_assoc; apply holds_here.
Qed.
(** The first list: without [udta], and in [udta] without [meta] *)
Theorem C244_mp4_added : forall pre ks post tag m padding b log,
  boxes_ok (bare pre ks post) -> ftyp_first (bare pre ks post) -> none_named ($"moov") pre -> none_named ($"udta") ks ->
  ilst_dump tag = Ok b -> b <> [] -> lenN (encs ks) + lenN b + 61 < 2 ^ 32 -> mp4_write (encs (bare pre ks post)) tag m padding = Ok log -> holds b (apply_log (encs (bare pre ks post)) log).
Proof.
  intros pre ks post tag m padding b log HO HF HN HU HI NE HL HW. rewrite (C118_udta_added pre ks post tag m padding b HO HF HN HU HI NE HL) in HW. injection HW as <-. rewrite rewritten. apply in_file.
  unfold new_meta. rewrite app_assoc. rewrite <- (app_nil_r b) at 2. apply holds_here.
Qed.
Theorem C244_mp4_meta : forall pre k1 us k2 post tag m padding b log,
  let top := bare pre (k1 ++ [node ($"udta") us] ++ k2) post in
  boxes_ok top -> ftyp_first top -> none_named ($"moov") pre -> none_named ($"udta") k1 -> none_named ($"meta") us ->
  ilst_dump tag = Ok b -> b <> [] -> lenN (encs k1) + lenN (encs us) + lenN (encs k2) + lenN b + 61 < 2 ^ 32 -> mp4_write (encs top) tag m padding = Ok log -> holds b (apply_log (encs top) log).
Proof.
  intros pre k1 us k2 post tag m padding b log top HO HF HN HU HM HI NE HL HW. unfold top in *. rewrite (C118_meta_added pre k1 us k2 post tag m padding b HO HF HN HU HM HI NE HL) in HW. injection HW as <-. rewrite rewritten. apply in_file.
  unfold new_meta. rewrite app_assoc. rewrite <- (app_nil_r b) at 2. apply holds_here.
Qed.
Example C244_mp4_ex : exists b log, ilst_dump [nam ($"a longer title")] = Ok b /\ lenN b = 46 /\ mp4_write (encs (file_ex [219] ($"ab") [free_ex 4])) [nam ($"a longer title")] Strict (Some 16) = Ok log /\
  takeN 46 (dropN 165 (apply_log (encs (file_ex [219] ($"ab") [free_ex 4])) log)) = b.
Proof. eexists _, _. split; [vm_compute; reflexivity|]. split; [vm_compute; reflexivity|]. split; [vm_compute; reflexivity|]. vm_compute. reflexivity. Qed.

(** ** FLAC: the comments of a tag without pictures, if the file has the same vendor or none *)
Lemma in_metadata : forall l B x, metadata l B -> In x l -> holds (snd x) B.
Proof.
  intros l B x H. induction H as [ty c H1 H2|ty c l b H1 H2 H IH]; intros [<-|HI]; cbn [snd].
  - exists ([ty + 128] ++ be_enc 3 (lenN c)), []. now rewrite app_nil_r, <- app_assoc.
  - contradiction.
  - exists ([ty] ++ be_enc 3 (lenN c)), b. now rewrite <- !app_assoc.
  - destruct (IH HI) as (p & q & ->). exists ([ty] ++ be_enc 3 (lenN c) ++ c ++ p), q. now rewrite <- !app_assoc.
Qed.
Theorem C244_flac : forall pre info l B audio t pad b log, tag_prefix pre -> metadata ((0, info) :: l) B -> 34 <= lenN info -> retained (vc_vendor t) l (vc_vendor t) ->
  vc_items t <> [] -> vc_pics t = [] -> vc_dump t = Ok b -> lenN b < 2 ^ 24 ->
  flac_write (flac_bytes pre B audio) (vc_vendor t) (vc_items t) [] pad = Ok log -> holds b (apply_log (flac_bytes pre B audio) log).
Proof.
  intros pre info l B audio t pad b log P M LI R NE NP D LB HW.
  destruct (C89_save pre info l B audio (vc_vendor t) (vc_vendor t) (vc_items t) [] pad [(4, b)] P M LI R) as (log' & B' & pb & W & A & M' & _); auto.
  { right. split; [exact NE|]. exists b. destruct t as [v items pics]. cbn [vc_pics] in NP. subst pics. auto. }
  rewrite HW in W. injection W as <-. rewrite A. unfold flac_bytes. apply (in_metadata _ _ (4, b)) in M'; [|right; apply in_or_app; right; left; reflexivity].
  destruct M' as (p & q & ->). cbn [snd]. exists (pre ++ $"fLaC" ++ p), (q ++ audio). now rewrite <- !app_assoc.
Qed.
(** Otherwise the vendor of the file is written instead. *)
Theorem C244_flac_refuted : exists data t b log, vc_dump t = Ok b /\ flac_write data (vc_vendor t) (vc_items t) (vc_pics t) None = Ok log /\ ~ holds b (apply_log data log).
Proof.
  exists (flac_bytes [] ex_B [7; 7; 7]), (mkVc ($"mine") [($"TITLE", $"x")] []). eexists _, _. split; [vm_compute; reflexivity|]. split; [vm_compute; reflexivity|].
  intro H. apply DumpThm.holdsb_true in H. vm_compute in H. discriminate H.
Qed.
Example C244_flac_ex : exists b log, vc_dump (mkVc ($"v1") [($"TITLE", $"x")] []) = Ok b /\ flac_write (flac_bytes [] ex_B [7; 7; 7]) ($"v1") [($"TITLE", $"x")] [] None = Ok log /\ DumpThm.holdsb b (apply_log (flac_bytes [] ex_B [7; 7; 7]) log) = true.
Proof. eexists _, _. split; [vm_compute; reflexivity|]. split; [vm_compute; reflexivity|]. vm_compute. reflexivity. Qed.
Print Assumptions C244_mp4.
Print Assumptions C244_mp4_added.
Print Assumptions C244_mp4_meta.
Print Assumptions C244_flac.
Print Assumptions C244_flac_refuted.
