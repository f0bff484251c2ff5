(** C251 for ID3v2 and APE tags. *)
From Verif Require Import BaseLemmas StrLemmas Id3v2HeaderModel Id3v2HeaderProof Id3v2HeaderThm.
From Verif Require PopmModel Id3v2TagModel Id3v2TagThm2 ApeModel ApeProof ApeProof2 ApeThm2.
From Verif Require Import FrameModel FrameWriteModel FrameSaveThm FrameThm GenericId3Thm StableThm CommuteThm.

(** No tag in front, or one with nothing before it *)
Definition tagged (x audio : bytes) : Prop :=
  (x = [] /\ takeN 3 audio <> $"ID3") \/
  (exists major minor flags n body, x = hdr_bytes major minor flags n ++ body /\ n < 2 ^ 32 /\ (major = 2 \/ major = 3 \/ major = 4) /\ flag flags 0x40 = false /\
    lenN body = unsynch32 n + (if negb (major =? 2) && flag flags 0x10 then 10 else 0)).
Lemma tagged_found : forall x audio r, tagged x audio -> 10 <= lenN audio -> exists h c, find_id3v2 (x ++ audio ++ r) 0 false None = Ok (h, c, lenN x).
Proof.
  intros x audio r [(-> & N)|(major & minor & flags & n & body & -> & Hn & Hm & F4 & Lb)] L.
  - exists None, None. cbn [app]. now apply no_id3v2.
  - destruct (C51_end_of_tag_partial [] major minor flags n (body ++ audio ++ r) false Hn) as (h & t & F & _). { destruct Hm as [->|[->| ->]]; auto. } { rewrite lenN_app. lia. }
    exists (Some h), t. cbn [app] in F. rewrite <- app_assoc. change (lenN (@nil N)) with 0 in F. rewrite F. f_equal. f_equal. rewrite lenN_app, Lb. unfold tag_len.
    assert (lenN (hdr_bytes major minor flags n) = 10) as -> by (unfold hdr_bytes; rewrite !lenN_app, be_enc_len; reflexivity). lia.
Qed.
Lemma suffix_same : forall (x d : bytes) k, k <= lenN d -> dropN (lenN (x ++ d) - k) (x ++ d) = dropN (lenN d - k) d.
Proof. intros x d k L. rewrite lenN_app. replace (lenN x + lenN d - k) with (lenN x + (lenN d - k)) by lia. rewrite <- dropN_dropN. now rewrite dropN_app by reflexivity. Qed.
Lemma old_behind : forall x audio old, 64 <= lenN audio -> ApeThm2.old_tag audio old -> ApeThm2.old_tag (x ++ audio) old.
Proof. intros x audio old L [(-> & N)|H]; [left|now right]. split; auto. rewrite suffix_same by lia. exact N. Qed.
Lemma end_behind : forall x d v1, 128 <= lenN d -> ApeThm2.file_end d v1 -> ApeThm2.file_end (x ++ d) v1.
Proof. intros x d v1 L [(-> & N)|H]; [left|now right]. split; auto. intros _. rewrite suffix_same by lia. now apply N. Qed.
Theorem C251_id3v2_ape : forall w window f l pre audio old v1 t new cover, let data := pre ++ audio ++ old ++ v1 in
  128 <= lenN audio -> takeN 3 audio <> $"ID3" -> takeN 8 (dropN 8 audio) <> $"APETAGEX" -> tagged pre audio -> in_front window pre audio -> ApeThm2.old_tag audio old -> ApeModel.ape_dump t = Ok new ->
  ApeThm2.file_end (audio ++ old ++ v1) v1 -> tag_flags_ok (w_v23 w) f -> l <> [] -> (forall tag, create_tag w f l = Ok tag -> lenN tag < 2 ^ 32) ->
  commute (save_id3v2 w window f l) (fun d => ApeModel.ape_write d cover true (ApeModel.at_ro t) (ApeModel.at_items t)) data.
Proof.
  intros w window f l pre audio old v1 t new cover data LA N3 NA TG IF OT D FE Ff NE LT l1 l2 H1 H2.
  assert (G : forall x, tagged x audio -> exists log, ApeModel.ape_write (x ++ audio ++ old ++ v1) cover true (ApeModel.at_ro t) (ApeModel.at_items t) = Ok log /\ apply_log (x ++ audio ++ old ++ v1) log = x ++ audio ++ new ++ v1).
  { intros x TX. destruct (tagged_found x audio (old ++ v1) TX ltac:(lia)) as (h & c & F).
    destruct (ApeThm2.C69_save_partial (x ++ audio) old v1 (ApeModel.at_ro t) (ApeModel.at_items t) new cover h c (lenN x)) as (log & W & A); rewrite <- ?app_assoc; auto.
    - apply end_behind; auto. rewrite lenN_app. lia.
    - apply old_behind; auto. lia.
    - rewrite !lenN_app. lia.
    - rewrite !lenN_app. lia.
    - rewrite <- dropN_dropN, (dropN_app _ _ x) by reflexivity. rewrite (dropN_app_le _ 8) by lia. rewrite takeN_app_le by (rewrite lenN_dropN; lia). exact NA.
    - rewrite <- !app_assoc in W, A. exists log. split; [exact W|]. rewrite A, <- app_assoc. reflexivity. }
  destruct (create_tag w f l) as [tag| |] eqn:E; [|unfold save_id3v2 in H1; rewrite E in H1; discriminate|unfold save_id3v2 in H1; rewrite E in H1; discriminate].
  unfold data in *. destruct (front_saved w window f l tag pre audio (old ++ v1) IF E) as (o1 & S1 & A1). rewrite H1 in S1. apply Ok_inj in S1. subst o1. rewrite A1.
  destruct (G pre TG) as (o2 & W2 & A2). rewrite H2 in W2. injection W2 as <-. rewrite A2.
  assert (TT : tagged tag audio).
  { right. destruct (tag_shape w f l tag Ff NE E (LT tag eq_refl)) as (fl & z & body & Et & Hz & F4 & F1 & Lb). exists (if w_v23 w then 3 else 4), 0, fl, z, body.
    split; [exact Et|]. split; [exact Hz|]. split; [destruct (w_v23 w); auto|]. split; [exact F4|]. rewrite F1. destruct (w_v23 w); exact Lb. }
  destruct (G tag TT) as (l3 & W3 & A3). destruct (front_saved w window f l tag pre audio (new ++ v1) IF E) as (l4 & S4 & A4).
  exists l3, l4. split; [exact W3|]. split; [exact S4|]. now rewrite A3, A4.
Qed.
Print Assumptions C251_id3v2_ape.
Example C251_id3v2_ape_ex : same_order (save_id3v2 w_ex 16 flags0 frames_ex) (fun d => ApeModel.ape_write d true true false (ApeThm2.one ($"Title") ($"New")))
  (hdr_bytes 4 0 0 2 ++ [0; 0] ++ repeat 7 128 ++ ApeThm2.dumped (ApeThm2.one ($"Title") ($"Old")) ++ ApeThm2.v1_ex) = true /\
  tagged (hdr_bytes 4 0 0 2 ++ [0; 0]) (repeat 7 128) /\ in_front 16 (hdr_bytes 4 0 0 2 ++ [0; 0]) (repeat 7 128).
Proof.
  split; [vm_compute; reflexivity|]. split.
  - right. exists 4, 0, 0, 2, [0; 0]. repeat split; auto.
  - right. exists [], 4, 0, 0, 2, [0; 0]. cbn [app]. split; [reflexivity|]. split; [reflexivity|]. split; [auto|]. split; [reflexivity|]. split; [reflexivity|]. split; [|vm_compute; discriminate].
    intros p q H. destruct p; auto. apply (f_equal (@length N)) in H. rewrite !app_length in H. cbn in H. lia.
Qed.
