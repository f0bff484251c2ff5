(** C251: tags of different types can be saved in any order. *)
From Verif Require Import BaseLemmas StrLemmas Id3v1Model Id3v1Spec Id3v1Proof Id3v1Thm Id3v2HeaderModel Id3v2HeaderProof Id3v2HeaderThm.
From Verif Require PopmModel Id3v2TagModel Id3v2TagThm2 ApeModel ApeProof ApeProof2 ApeThm2.
From Verif Require Import IffModel IffSpec IffProof IffProof2 AiffModel AiffProof IffThm2 AiffThm ChunkTagModel FrameModel FrameWriteModel FrameSaveThm GenericChunkThm.
From Verif Require IffThm IffProof4.
From Verif Require Import FrameThm GenericId3Thm StableThm.

(** Both orders succeed and give the same file. *)
Definition commute {E1 E2} (one : bytes -> res E1 (list fop)) (two : bytes -> res E2 (list fop)) (data : bytes) : Prop := forall l1 l2, one data = Ok l1 -> two data = Ok l2 ->
  exists l3 l4, two (apply_log data l1) = Ok l3 /\ one (apply_log data l2) = Ok l4 /\ apply_log (apply_log data l1) l3 = apply_log (apply_log data l2) l4.

(** ** ID3v1 and ID3v2 *)
Lemma shape_behind : forall x data audio found, file_shape data audio found -> 128 <= lenN data -> file_shape (x ++ data) (x ++ audio) found.
Proof.
  intros x data audio found H L. destruct H as [audio block LB T|audio N]; [rewrite app_assoc; now constructor|]. constructor. intros a block E LB.
  assert (D : block = dropN (lenN audio - 128) audio).
  { pose proof (f_equal lenN E) as EL. rewrite !lenN_app in EL. assert (X : dropN (lenN a) (x ++ audio) = block) by (rewrite E; apply dropN_app; reflexivity).
    rewrite <- X. replace (lenN a) with (lenN x + (lenN audio - 128)) by lia. rewrite <- dropN_dropN. now rewrite dropN_app by reflexivity. }
  apply (N (takeN (lenN audio - 128) audio)); auto. rewrite D. symmetry. apply takeN_dropN.
Qed.
Lemma v1_saved : forall t lossy data audio found b, v1_is_empty t = false -> file_shape data audio found -> v1_encode t lossy = Ok b -> exists log, write_id3v1 data t lossy = Ok log /\ apply_log data log = audio ++ b.
Proof.
  intros t lossy data audio found b NE FS E. pose proof (C17_save data audio found t lossy FS) as C. destruct (write_id3v1 data t lossy) as [log|e|]; [|congruence|contradiction].
  exists log. split; [reflexivity|]. destruct C as (C & _). destruct (C NE) as (b' & E' & A). congruence.
Qed.
(** What is in front: nothing that looks like a tag, or a tag with junk before it *)
Definition in_front (window : N) (pre rest : bytes) : Prop :=
  (pre = [] /\ window <= lenN rest /\ forall p q, takeN window rest <> p ++ $"ID3" ++ q) \/
  (exists junk major minor flags n body, pre = junk ++ hdr_bytes major minor flags n ++ body /\ n < 2 ^ 32 /\ (major = 2 \/ major = 3 \/ major = 4) /\ flag flags 0x40 = false /\
    lenN body = unsynch32 n + (if negb (major =? 2) && flag flags 0x10 then 10 else 0) /\ (forall p q, junk ++ $"ID3" = p ++ $"ID3" ++ q -> p = junk) /\ lenN junk + 3 <= window).
Lemma front_saved : forall w window f l tag pre rest x, in_front window pre rest -> create_tag w f l = Ok tag -> exists log, save_id3v2 w window f l (pre ++ rest ++ x) = Ok log /\ apply_log (pre ++ rest ++ x) log = tag ++ rest ++ x.
Proof.
  intros w window f l tag pre rest x [(-> & LW & N)|(junk & major & minor & flags & n & body & -> & Hn & Hm & F4 & Lb & Hj & Hw)] E.
  - cbn [app]. assert (T : takeN window (rest ++ x) = takeN window rest) by (apply takeN_app_le; lia). unfold save_id3v2. rewrite E. unfold find_id3v2. rewrite dropN_0, T.
    pose proof (C54_junk_search (takeN window rest)) as J. destruct (find_id3v2_in_junk (takeN window rest)) as [[[off r]|]| |]; try contradiction.
    + destruct J as (p & J & _). exfalso. apply (N p r J).
    + cbn [bind]. eexists. split; [reflexivity|]. rewrite dropN_0. apply ApeThm2.log_apply.
  - assert (S : exists log, save_id3v2 w window f l (junk ++ hdr_bytes major minor flags n ++ body ++ rest ++ x) = Ok log).
    { unfold save_id3v2. rewrite E. set (b1 := takeN (unsynch32 n) body). set (b2 := dropN (unsynch32 n) body).
      assert (B : body = b1 ++ b2) by (symmetry; apply takeN_dropN). assert (L1 : lenN b1 = unsynch32 n) by (subst b1; rewrite lenN_takeN; lia).
      destruct (C54_junk_then_tag junk major minor flags n b1 (b2 ++ rest ++ x) window false Hn Hm F4 L1 Hj Hw) as (h & t & F & _).
      replace (body ++ rest ++ x) with (b1 ++ b2 ++ rest ++ x) by (rewrite B, <- !app_assoc; reflexivity). rewrite F. eexists. reflexivity. }
    destruct S as (log & S). exists log. rewrite <- !app_assoc. split; [exact S|].
    destruct (C148_replaced w window f l junk major minor flags n body (rest ++ x) log Hn Hm F4 Lb Hj Hw S) as (tag' & E' & A). rewrite E in E'. apply Ok_inj in E'. subst tag'. exact A.
Qed.
Theorem C251_id3 : forall t lossy w window f l pre rest audio found, v1_is_empty t = false -> file_shape rest audio found -> 128 <= lenN rest -> in_front window pre audio ->
  commute (fun d => write_id3v1 d t lossy) (save_id3v2 w window f l) (pre ++ rest).
Proof.
  intros t lossy w window f l pre rest audio found NE FS L128 IF l1 l2 H1 H2.
  pose proof (shape_behind pre rest audio found FS L128) as FS1. pose proof (C17_save _ _ _ t lossy FS1) as C. rewrite H1 in C. destruct C as (C & _). destruct (C NE) as (b & Eb & A1). rewrite A1, <- app_assoc.
  assert (R : exists y, rest = audio ++ y) by (inversion FS; subst; [eauto|exists []; now rewrite app_nil_r]). destruct R as (y & R).
  destruct (create_tag w f l) as [tag| |] eqn:E; [|unfold save_id3v2 in H2; rewrite E in H2; discriminate|unfold save_id3v2 in H2; rewrite E in H2; discriminate].
  destruct (front_saved w window f l tag pre audio y IF E) as (l2' & S2 & A2). rewrite <- R in S2, A2. rewrite H2 in S2. apply Ok_inj in S2. subst l2'. rewrite A2.
  destruct (front_saved w window f l tag pre audio b IF E) as (l3 & S3 & A3).
  destruct (v1_saved t lossy (tag ++ rest) (tag ++ audio) found b NE (shape_behind tag rest audio found FS L128) Eb) as (l4 & S4 & A4).
  exists l3, l4. split; [exact S3|]. split; [exact S4|]. rewrite A3, A4, <- app_assoc. reflexivity.
Qed.
Print Assumptions C251_id3.

(** ** ID3v1 and APE *)
Theorem C251_ape : forall audio old v1 found t tag new cover lossy, let data := audio ++ old ++ v1 in
  64 <= lenN audio -> takeN 3 audio <> $"ID3" -> takeN 8 (dropN 8 audio) <> $"APETAGEX" -> ApeThm2.old_tag audio old -> ApeModel.ape_dump t = Ok new -> v1_is_empty tag = false ->
  file_shape data (audio ++ old) found -> file_shape (audio ++ new ++ v1) (audio ++ new) found ->
  ApeThm2.file_end data v1 -> commute (fun d => write_id3v1 d tag lossy) (fun d => ApeModel.ape_write d cover true (ApeModel.at_ro t) (ApeModel.at_items t)) data.
Proof.
  intros audio old v1 found t tag new cover lossy data LA N3 NA OT D NE FS1 FS2 FE l1 l2 H1 H2.
  assert (G : forall e, ApeThm2.file_end (audio ++ old ++ e) e -> exists log, ApeModel.ape_write (audio ++ old ++ e) cover true (ApeModel.at_ro t) (ApeModel.at_items t) = Ok log /\ apply_log (audio ++ old ++ e) log = audio ++ new ++ e).
  { intros e F. apply (ApeThm2.C69_save_partial audio old e (ApeModel.at_ro t) (ApeModel.at_items t) new cover None None 0); auto.
    - rewrite lenN_app. lia.
    - apply no_id3v2; [lia|auto].
    - rewrite !lenN_app. lia.
    - rewrite (dropN_app_le _ 8) by lia. rewrite takeN_app_le by (rewrite lenN_dropN; lia). exact NA. }
  pose proof (C17_save _ _ _ tag lossy FS1) as C. rewrite H1 in C. destruct C as (C & _). destruct (C NE) as (b & Eb & A1). rewrite A1, <- app_assoc.
  unfold data in *. destruct (G v1 FE) as (l2' & W2 & A2). rewrite H2 in W2. injection W2 as <-. rewrite A2.
  destruct (G b) as (l3 & W3 & A3). { right. split; [exact (encode_len _ _ _ Eb)|exact (encode_marker _ _ _ Eb)]. }
  destruct (v1_saved tag lossy _ _ found b NE FS2 Eb) as (l4 & W4 & A4). exists l3, l4. split; [exact W3|]. split; [exact W4|]. rewrite A3, A4, <- app_assoc. reflexivity.
Qed.
Print Assumptions C251_ape.

(** ** AIFF text and ID3 chunks: no tag of either type before *)
Lemma text_no_tag : forall t, Forall no_tag (text_chunks t).
Proof. intro t. eapply Forall_impl; [|apply text_ids]. intros c H. unfold no_tag. unfold is_text_id in H. unfold IffProof3.id3_id.
  destruct (list_eqb (fst c) ($"ID3 ")) eqn:E1; [apply list_eqb_eq in E1; rewrite E1 in H; discriminate H|]. destruct (list_eqb (fst c) ($"id3 ")) eqn:E2; [apply list_eqb_eq in E2; rewrite E2 in H; discriminate H|]. reflexivity. Qed.

Theorem C251_aiff : forall m m' upper w f frames kind t a c b, aiff_kind kind -> AiffProof.text_ok t -> Forall chunk_ok (a ++ c :: b) -> Forall (fun c => not_text c = true) (a ++ c :: b) -> Forall no_tag (a ++ c :: b) ->
  fst c = $"COMM" -> Forall (fun c => fst c <> $"COMM") b ->
  (forall tag, create_tag w (without_footer f) frames = Ok tag -> tag <> [] /\ lenN tag < 2 ^ 32 /\ 12 + lenN (body true (a ++ c :: text_chunks t ++ b ++ [(IffProof4.id3_name upper, tag)])) < 2 ^ 32) ->
  commute (fun d => write_aiff_text m d t) (save_id3_chunk true m' upper w f frames) (form_file kind (a ++ c :: b)).
Proof.
  intros m m' upper w f frames kind t a c b K TO OK NT NI CM NB T l1 l2 H1 H2. unfold save_id3_chunk in *.
  destruct (create_tag w (without_footer f) frames) as [tag| |]; try discriminate H2. destruct (T tag eq_refl) as (NE & LT & L). set (id3 := (IffProof4.id3_name upper, tag)) in *.
  assert (SZ : lenN (body true (a ++ c :: text_chunks t ++ b)) <= lenN (body true (a ++ c :: text_chunks t ++ b ++ [id3])) /\ lenN (body true ((a ++ c :: b) ++ [id3])) <= lenN (body true (a ++ c :: text_chunks t ++ b ++ [id3]))).
  { unfold body. rewrite !flat_map_app. cbn [flat_map]. rewrite !flat_map_app. cbn [flat_map]. rewrite ?lenN_app. lia. }
  assert (KL : lenN kind = 4) by (destruct K as [-> | ->]; reflexivity). assert (IM : id_ok ($"FORM")) by (apply id_ok_valid; split; reflexivity).
  assert (CO : chunk_ok id3) by (split; [apply IffProof4.id3_name_ok|exact LT]).
  destruct (C108_new_text m kind t a c b K TO OK NT CM NB ltac:(lia)) as (o1 & W1 & A1). rewrite H1 in W1. injection W1 as <-. rewrite A1.
  assert (ADD : forall cs, Forall chunk_ok cs -> Forall no_tag cs -> 12 + lenN (body true (cs ++ [id3])) < 2 ^ 32 -> saves true m' upper (match w_padding w with Some _ => true | None => false end) (form_file kind cs) tag (form_file kind (cs ++ [id3]))).
  { intros cs O N X. pose proof (C106_added true upper (match w_padding w with Some _ => true | None => false end) m' ($"FORM") kind tag IM KL NE LT cs [] O N X) as S. rewrite !app_nil_r in S. exact S. }
  destruct (ADD _ OK NI ltac:(lia)) as (o2 & W2 & A2). rewrite H2 in W2. injection W2 as <-. rewrite A2.
  assert (O3 : Forall chunk_ok (a ++ c :: text_chunks t ++ b)). { apply Forall_app in OK as [O1 O2]. inversion O2; subst. apply Forall_app. split; auto. constructor; auto. apply Forall_app. split; auto. apply text_chunks_ok; auto. }
  assert (N3 : Forall no_tag (a ++ c :: text_chunks t ++ b)). { apply Forall_app in NI as [O1 O2]. inversion O2; subst. apply Forall_app. split; auto. constructor; auto. apply Forall_app. split; auto using text_no_tag. }
  destruct (ADD _ O3 N3) as (l3 & W3 & A3). { rewrite <- app_assoc. cbn [app]. rewrite <- app_assoc. exact L. }
  destruct (C108_new_text m kind t a c (b ++ [id3]) K TO) as (l4 & W4 & A4).
  { rewrite app_comm_cons, app_assoc. apply Forall_app. auto. } { rewrite app_comm_cons, app_assoc. apply Forall_app. split; auto. constructor; auto. destruct upper; reflexivity. } { exact CM. }
  { apply Forall_app. split; auto. constructor; auto. destruct upper; discriminate. } { lia. }
  rewrite <- app_assoc. cbn [app]. exists l3, l4. split; [exact W3|]. split; [exact W4|]. rewrite A3, A4. rewrite <- app_assoc. cbn [app]. rewrite <- app_assoc. reflexivity.
Qed.
Print Assumptions C251_aiff.

(** ** Examples and counterexamples *)
Definition orders {E1 E2} (one : bytes -> res E1 (list fop)) (two : bytes -> res E2 (list fop)) (data : bytes) : option (bytes * bytes) :=
  match one data, two data with
  | Ok l1, Ok l2 => match two (apply_log data l1), one (apply_log data l2) with Ok l3, Ok l4 => Some (apply_log (apply_log data l1) l3, apply_log (apply_log data l2) l4) | _, _ => None end
  | _, _ => None end.
Lemma not_commute : forall E1 E2 (one : bytes -> res E1 (list fop)) (two : bytes -> res E2 (list fop)) data x y, orders one two data = Some (x, y) -> x <> y -> ~ commute one two data.
Proof.
  intros E1 E2 one two data x y T N S. unfold orders in T. destruct (one data) as [l1| |] eqn:W1; try discriminate. destruct (two data) as [l2| |] eqn:W2; try discriminate.
  destruct (S l1 l2 W1 W2) as (l3 & l4 & W3 & W4 & A). rewrite W3, W4 in T. injection T as <- <-. congruence.
Qed.
Definition same_order {E1 E2} (one : bytes -> res E1 (list fop)) (two : bytes -> res E2 (list fop)) (data : bytes) : bool := match orders one two data with Some (x, y) => list_eqb x y && negb (list_eqb x data) | None => false end.
Example C251_ex : same_order (fun d => write_id3v1 d v1_a false) (save_id3v2 w_ex 16 flags0 frames_ex) (hdr_bytes 4 0 0 2 ++ [0; 0] ++ repeat 7 130) = true /\
  same_order (fun d => write_id3v1 d v1_a false) (fun d => ApeModel.ape_write d true true false (ApeThm2.one ($"Title") ($"New"))) (ApeThm2.audio_ex ++ ApeThm2.dumped (ApeThm2.one ($"Title") ($"Old")) ++ ApeThm2.v1_ex) = true /\
  same_order (fun d => write_aiff_text Strict d (mkAt (Some ($"A")) None None None None)) (save_id3_chunk true Strict true w_ex flags0 frames_ex) (form_file ($"AIFF") [($"COMM", repeat 0 18); ($"SSND", [66])]) = true.
Proof. repeat (split; [vm_compute; reflexivity|]). vm_compute. reflexivity. Qed.
(** Both are added at the end of a WAV file. *)
Theorem C251_wav_refuted : exists data, ~ commute (fun d => write_riff_info Strict d [($"INAM", $"A")]) (save_id3_chunk false Strict false w_ex flags0 frames_ex) data.
Proof. exists (riff_file [($"data", [1; 2])]). eapply not_commute; [vm_compute; reflexivity|vm_compute; discriminate]. Qed.
(** Finding: in a short file the letters ID3 in an ID3v1 tag are taken for the start of an ID3v2 tag, and what is before them is lost. *)
Theorem C251_short_refuted : exists t data, ~ commute (fun d => write_id3v1 d t false) (save_id3v2 w_ex 1024 flags0 frames_ex) data.
Proof. exists (mkV1 (Some ($"ID3" ++ [4])) None None None None None None), [1; 2; 3]. eapply not_commute; [vm_compute; reflexivity|vm_compute; discriminate]. Qed.
Print Assumptions C251_wav_refuted. Print Assumptions C251_short_refuted.
