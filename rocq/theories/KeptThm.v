(** Theorems: saving keeps the type of the file. *)
From Verif Require Import BaseLemmas StrLemmas FileModel Id3v2HeaderModel Id3v2HeaderProof Id3v1Model Id3v1Spec Id3v1Thm IffModel IffSpec IffProof AiffModel ApeModel ApeThm2 FlacModel OggModel OggReadProof OggFileModel OggFileProof OggFileThm FrameThm FrameSaveThm Mp4Model Mp4WriteModel ProbeModel ProbeSpec ProbeProof ProbeThm TaggedModel KeptProof KeptProof2 KeptProof3.
Import ProbeModel ProbeSpec.

(** ** The type found at the start of a file *)
Lemma format_begins : forall g d f, unclaimed g (takeN 36 d) -> begins f d -> format_of g d = Ok f.
Proof.
  intros g d f U B. unfold format_of, verified, guess_file_type. cbn [probe_new pb_junk pb_in pb_type].
  rewrite (C198_magic g _ (mkCu d 0) f); [reflexivity| |]; unfold rest; cbn [u_pos u_data]; now rewrite dropN_0.
Qed.
Lemma format_guess : forall g d f, format_of g d = Ok f <-> exists u, guess_inner g DEFAULT_MAX_JUNK_BYTES (mkCu d 0) = Ok (Some f, u).
Proof.
  intros g d f. unfold format_of, verified, guess_file_type. cbn [probe_new pb_junk pb_in pb_type]. destruct (guess_inner g DEFAULT_MAX_JUNK_BYTES (mkCu d 0)) as [[[f'|] u]| |]; cbn [bind pb_type pb_in].
  - split. intros H. injection H as <-. eauto. intros (u' & H). injection H as -> _. reflexivity.
  - split. discriminate. intros (u' & H). discriminate.
  - split. discriminate. intros (u' & H). discriminate.
  - split. discriminate. intros (u' & H). discriminate.
Qed.

(** ** More at the end: a type that is recognised stays *)
Lemma scan_app : forall r p i k x, sync_scan p r i = Some k -> sync_scan p (r ++ x) i = Some k.
Proof. induction r as [|b r IH]; intros p i k x H; cbn in *; [discriminate|]. destruct (verify_frame_sync p b); auto. Qed.
Lemma scan_in : forall r p i k, sync_scan p r i = Some k -> i <= k /\ k + 1 <= i + lenN r.
Proof. induction r as [|b r IH]; intros p i k H; cbn in H; [discriminate|]. rewrite lenN_cons. destruct (verify_frame_sync p b). { injection H as <-. lia. } apply IH in H. lia. Qed.
Lemma search_app : forall r k x, search_for_frame_sync r = Some k -> search_for_frame_sync (r ++ x) = Some k /\ k + 2 <= lenN r.
Proof. intros [|a r] k x H; cbn in H; [discriminate|]. split. cbn. now apply scan_app. apply scan_in in H. rewrite lenN_cons. lia. Qed.
Lemma nth_app : forall (r x : bytes) k, k + 2 <= lenN r -> nth 1 (dropN k (r ++ x)) 0 = nth 1 (dropN k r) 0.
Proof. intros r x k L. rewrite dropN_app_le by lia. rewrite app_nth1; auto. assert (X := lenN_dropN _ k r). unfold lenN in *. lia. Qed.
Lemma check_app : forall junk (d x : bytes) pos f u, pos <= lenN d -> check_mpeg_or_aac junk (mkCu d pos) = (Some f, u) -> exists u', check_mpeg_or_aac junk (mkCu (d ++ x) pos) = (Some f, u').
Proof.
  intros junk d x pos f u P H. unfold check_mpeg_or_aac, rest in *. cbn [u_pos u_data] in *. rewrite dropN_app_le by auto. set (r := dropN pos d) in *.
  assert (W : exists y, takeN junk (r ++ x) = takeN junk r ++ y).
  { destruct (N.leb_spec junk (lenN r)). { exists []. rewrite app_nil_r. now apply takeN_app_le. } exists (takeN (junk - lenN r) x). rewrite takeN_app_ge by lia. now rewrite (takeN_all _ junk r) by lia. }
  destruct W as (y & W). rewrite W. destruct (search_for_frame_sync (takeN junk r)) as [k|] eqn:E; [|discriminate]. apply (search_app _ _ y) in E as [E L]. rewrite E.
  rewrite nth_app. 2:{ rewrite lenN_takeN in L. lia. } injection H as <- _. eauto.
Qed.
Theorem C229_trailing : forall g a x f, 36 <= lenN a -> format_of g a = Ok f -> format_of g (a ++ x) = Ok f.
Proof.
  intros g a x f L H. apply format_guess in H as (u & H). apply format_guess. unfold guess_inner in *. assert (RA : rest (mkCu a 0) = a) by (unfold rest; cbn; apply dropN_0). assert (RX : rest (mkCu (a ++ x) 0) = a ++ x) by (unfold rest; cbn; apply dropN_0).
  rewrite RX. rewrite RA in H. rewrite takeN_app_le by auto. destruct (if rg_use g then _ else None) as [[n r]|]. { injection H as -> _. eauto. }
  destruct (from_buffer_inner (takeN 36 a)) as [[f0|size|]|].
  - injection H as -> _. eauto.
  - destruct (2 ^ 32 <=? 10 + size); [discriminate|]. cbn [u_pos] in *. unfold to in *. cbn [u_data] in *. set (p := 0 + (10 + size)) in *.
    destruct (N.leb_spec (lenN a) p) as [B|B].
    { exfalso. revert H. unfold rest. cbn [u_pos u_data]. rewrite dropN_all by auto. change (takeN 4 []) with (@nil N). cbn [app length Nat.sub repeat]. cbn [takeN].
      change (list_eqb (takeN 3 [0; 0; 0; 0]) ($"MAC")) with false. change (list_eqb [0; 0; 0; 0] ($"fLaC")) with false. change (list_eqb [0; 0; 0; 0] ($"MPCK") || list_eqb (takeN 3 [0; 0; 0; 0]) ($"MP+")) with false. cbv iota.
      unfold check_mpeg_or_aac, rest. cbn [u_pos u_data]. rewrite dropN_all by auto. replace (takeN DEFAULT_MAX_JUNK_BYTES []) with (@nil N) by reflexivity. discriminate. }
    assert (RY : rest (mkCu (a ++ x) p) = rest (mkCu a p) ++ x) by (unfold rest; cbn [u_pos u_data]; now rewrite dropN_app_le by lia). rewrite RY. set (r := rest (mkCu a p)) in *.
    rewrite !pad4 in *. set (ia := takeN 4 (r ++ [0; 0; 0; 0])) in *. set (ix := takeN 4 ((r ++ x) ++ [0; 0; 0; 0])).
    assert (PRE : forall k pat, lenN pat = k -> k <= 4 -> Forall (fun c => c <> 0) pat -> list_eqb (takeN k ia) pat = true -> list_eqb (takeN k ix) pat = true).
    { intros k pat LP K NZ E. apply list_eqb_eq in E. unfold ia in E. rewrite take_take in E by auto. apply pad_prefix in E as (q & E); auto. apply list_eqb_eq. unfold ix. rewrite take_take by auto. rewrite E, <- !app_assoc. now apply takeN_app. }
    assert (FULL : forall l : bytes, lenN l = 4 -> forall b c : bytes, list_eqb l b = list_eqb (takeN 4 l) b) by (intros l LL b c; now rewrite takeN_all by lia).
    assert (LA : lenN ia = 4) by (unfold ia; rewrite lenN_takeN, lenN_app; change (lenN [0; 0; 0; 0]) with 4; lia). assert (LX : lenN ix = 4) by (unfold ix; rewrite lenN_takeN, lenN_app; change (lenN [0; 0; 0; 0]) with 4; lia).
    rewrite (FULL ia LA ($"fLaC") []), (FULL ia LA ($"MPCK") []) in H. rewrite (FULL ix LX ($"fLaC") []), (FULL ix LX ($"MPCK") []).
    assert (NZ1 : Forall (fun c => c <> 0) ($"MAC")) by (repeat constructor; discriminate). assert (NZ2 : Forall (fun c => c <> 0) ($"fLaC")) by (repeat constructor; discriminate).
    assert (NZ3 : Forall (fun c => c <> 0) ($"MPCK")) by (repeat constructor; discriminate). assert (NZ4 : Forall (fun c => c <> 0) ($"MP+")) by (repeat constructor; discriminate).
    assert (CHK : forall f0 u0, check_mpeg_or_aac DEFAULT_MAX_JUNK_BYTES (mkCu a p) = (Some f0, u0) -> exists u', check_mpeg_or_aac DEFAULT_MAX_JUNK_BYTES (mkCu (a ++ x) p) = (Some f0, u')) by (intros f0 u0; apply check_app; lia).
    (* a sync in the old file: the identifiers cannot appear in the longer one *)
    assert (NEW : forall k pat, lenN pat = k -> k <= 4 -> 3 <= k -> Forall (fun c => c < 0xE0) pat -> list_eqb (takeN k ia) pat = false -> list_eqb (takeN k ix) pat = true -> forall f0 u0, check_mpeg_or_aac DEFAULT_MAX_JUNK_BYTES (mkCu a p) = (Some f0, u0) -> False).
    { intros k pat LP K4 K3 SM NE E f0 u0 C. apply list_eqb_eq in E. apply list_eqb_neq in NE. unfold ix, ia in *. rewrite take_take in E, NE by auto. destruct (N.leb_spec k (lenN r)) as [LR|LR].
      { apply NE. rewrite <- E. rewrite <- !app_assoc. now rewrite !takeN_app_le by auto. }
      unfold check_mpeg_or_aac in C. fold r in C. rewrite (takeN_all _ DEFAULT_MAX_JUNK_BYTES r) in C by (unfold DEFAULT_MAX_JUNK_BYTES; lia).
      destruct (search_for_frame_sync r) as [i|] eqn:SR; [|discriminate]. assert (F : Forall (fun c => c < 0xE0) r).
      { assert (r = takeN (lenN r) pat). { rewrite <- E. rewrite take_take by lia. rewrite <- app_assoc. symmetry. now apply takeN_app. } rewrite H0. now apply Forall_takeN. }
      clear - F SR. assert (NS : forall l q i k, Forall (fun c => c < 0xE0) l -> q < 0xE0 -> sync_scan q l i = Some k -> False).
      { induction l as [|b l IH]; intros q i0 k FL Q E; cbn in E; [discriminate|]. inversion FL; subst. unfold verify_frame_sync in E. destruct (N.eqb_spec q 0xFF); [lia|]. cbn [andb] in E. eapply IH; eauto. }
      destruct r as [|b r]; cbn in SR; [discriminate|]. inversion F; subst. eapply NS; eauto. }
    destruct (list_eqb (takeN 3 ia) ($"MAC")) eqn:E1. { rewrite (PRE 3 ($"MAC") eq_refl ltac:(lia) NZ1 E1). injection H as -> _. eauto. }
    destruct (list_eqb (takeN 4 ia) ($"fLaC")) eqn:E2.
    { destruct (list_eqb (takeN 3 ix) ($"MAC")) eqn:X1. { exfalso. pose proof (PRE 4 ($"fLaC") eq_refl ltac:(lia) NZ2 E2) as Y. apply list_eqb_eq in X1, Y. rewrite takeN_all in Y by lia. rewrite Y in X1. discriminate. }
      rewrite (PRE 4 ($"fLaC") eq_refl ltac:(lia) NZ2 E2). injection H as -> _. eauto. }
    destruct (list_eqb (takeN 4 ia) ($"MPCK")) eqn:E3; cbn [orb] in H.
    { pose proof (PRE 4 ($"MPCK") eq_refl ltac:(lia) NZ3 E3) as Y. apply list_eqb_eq in Y. rewrite takeN_all in Y by lia. rewrite Y. injection H as -> _. eexists. reflexivity. }
    destruct (list_eqb (takeN 3 ia) ($"MP+")) eqn:E4.
    { pose proof (PRE 3 ($"MP+") eq_refl ltac:(lia) NZ4 E4) as Y. destruct (list_eqb (takeN 3 ix) ($"MAC")) eqn:X1. { apply list_eqb_eq in X1, Y. rewrite X1 in Y. discriminate. }
      destruct (list_eqb (takeN 4 ix) ($"fLaC")) eqn:X2. { apply list_eqb_eq in X2, Y. rewrite takeN_all in X2 by lia. rewrite X2 in Y. discriminate. }
      rewrite Y, orb_true_r. injection H as -> _. eauto. }
    destruct (check_mpeg_or_aac DEFAULT_MAX_JUNK_BYTES (mkCu a p)) as [o u0] eqn:C. injection H as -> _.
    assert (SM : forall pat, forallb (fun c => c <? 0xE0) pat = true -> Forall (fun c => c < 0xE0) pat) by (intros pat FB; apply Forall_forall; intros c IC; rewrite forallb_forall in FB; apply FB in IC; lia).
    destruct (list_eqb (takeN 3 ix) ($"MAC")) eqn:X1. { exfalso. eapply (NEW 3 ($"MAC")); eauto; try lia; try reflexivity. }
    destruct (list_eqb (takeN 4 ix) ($"fLaC")) eqn:X2. { exfalso. eapply (NEW 4 ($"fLaC")); eauto; try lia; try reflexivity. }
    destruct (list_eqb (takeN 4 ix) ($"MPCK")) eqn:X3. { exfalso. eapply (NEW 4 ($"MPCK")); eauto; try lia; try reflexivity. }
    destruct (list_eqb (takeN 3 ix) ($"MP+")) eqn:X4. { exfalso. eapply (NEW 3 ($"MP+")); eauto; try lia; try reflexivity. }
    cbn [orb]. destruct (CHK _ _ eq_refl) as (u' & ->). eauto.
  - destruct (check_mpeg_or_aac DEFAULT_MAX_JUNK_BYTES (mkCu a 0)) as [o u0] eqn:C. injection H as -> _. destruct (check_app _ a x 0 f u0 ltac:(lia) C) as (u' & ->). eauto.
  - discriminate.
Qed.
Print Assumptions C229_trailing.

(** ** Tags at the end: ID3v1 and APE *)
Theorem C229_id3v1 : forall g data audio found t lossy f, file_shape data audio found -> 36 <= lenN audio -> format_of g audio = Ok f ->
  match write_id3v1 data t lossy with Ok log => forall d, crash data log d -> format_of g d = Ok f | _ => True end.
Proof.
  intros g data audio found t lossy f S L F. pose proof (C17_save data audio found t lossy S) as H. destruct (write_id3v1 data t lossy); auto. destruct H as (_ & _ & H). intros d C. destruct (H d C) as (tail & ->). now apply C229_trailing.
Qed.
Print Assumptions C229_id3v1.
Theorem C229_ape : forall g audio old v1 ro items new cover h c p f, let data := audio ++ old ++ v1 in
  file_end data v1 -> old_tag audio old -> 32 <= lenN (audio ++ old) -> find_id3v2 data 0 false None = Ok (h, c, p) -> p + 16 <= lenN data -> takeN 8 (dropN (p + 8) data) <> $"APETAGEX" ->
  create_ape_tag ro items = Ok new -> 36 <= lenN audio -> format_of g audio = Ok f ->
  exists log, ape_write data cover true ro items = Ok log /\ format_of g (apply_log data log) = Ok f.
Proof.
  intros g audio old v1 ro items new cover h c p f data A B C D E F G L H. destruct (C69_save_partial audio old v1 ro items new cover h c p A B C D E F G) as (log & W & X). exists log. split; auto. fold data in X. rewrite X. now apply C229_trailing.
Qed.
Print Assumptions C229_ape.

(** ** WAV and AIFF *)
Lemma head_begins : forall f v w, In f [FWav; FAiff] -> begins f v -> same_head v w -> begins f w.
Proof.
  intros f v w I B (L & A & C). assert (X : exists s r, w = takeN 4 v ++ s ++ takeN 4 (dropN 8 v) ++ r /\ lenN s = 4).
  { apply (twelve w); auto. rewrite take_take by lia. exact A. rewrite <- C. unfold takeN, dropN. change (N.to_nat 12) with (N.to_nat 8 + N.to_nat 4)%nat. now rewrite <- firstn_skipn_comm. }
  destruct X as (s & r & -> & LS). assert (D : forall p q k z : bytes, lenN p = 4 -> lenN q = 4 -> lenN k = 4 -> takeN 4 (dropN 8 (p ++ q ++ k ++ z)) = k).
  { intros p q k z P Q K. rewrite (app_assoc p). rewrite dropN_app by (rewrite lenN_app; lia). now apply takeN_app. }
  destruct B; try (exfalso; cbn in I; intuition discriminate).
  all: rewrite (takeN_app _ 4) by reflexivity; rewrite D by auto; now constructor.
Qed.
Theorem C229_wav_info : forall g m data t log, begins FWav data -> write_riff_info m data t = Ok log -> unclaimed g (takeN 36 (apply_log data log)) -> format_of g (apply_log data log) = Ok FWav.
Proof.
  intros g m data t log B W U. apply format_begins; auto. eapply head_begins; [cbn; auto|exact B|]. eapply riff_same; eauto. inversion B as [size r H E| | | | | | | | | | | | |]. rewrite !lenN_app, H. change (lenN ($"RIFF")) with 4. change (lenN ($"WAVE")) with 4. lia.
Qed.
Print Assumptions C229_wav_info.
Theorem C229_aiff_text : forall g m data t log, begins FAiff data -> write_aiff_text m data t = Ok log -> unclaimed g (takeN 36 (apply_log data log)) -> format_of g (apply_log data log) = Ok FAiff.
Proof.
  intros g m data t log B W U. apply format_begins; auto. eapply head_begins; [cbn; auto|exact B|]. eapply aiff_same; eauto. inversion B as [|size r H E|size r H E| | | | | | | | | | |]; rewrite !lenN_app, H; change (lenN ($"FORM")) with 4; [change (lenN ($"AIFF")) with 4|change (lenN ($"AIFC")) with 4]; lia.
Qed.
Print Assumptions C229_aiff_text.
(** The size in the header covers the type of the file. *)
Theorem C229_id3_chunk : forall g (be : bool) m upper padding data tag log f, f = (if be then FAiff else FWav) -> begins f data -> 4 <= dec32 be (takeN 4 (dropN 4 data)) ->
  write_id3_chunk be m upper padding data tag = Ok log -> unclaimed g (takeN 36 (apply_log data log)) -> format_of g (apply_log data log) = Ok f.
Proof.
  intros g be m upper padding data tag log f Ef B S W U. apply format_begins; auto.
  assert (SH : exists a s b r, data = a ++ s ++ b ++ r /\ lenN a = 4 /\ lenN s = 4 /\ lenN b = 4). { subst f. destruct be; inversion B; do 4 eexists; (split; [reflexivity|]); auto. }
  destruct SH as (a & s & b & r & ED & LA & LS & LB). assert (L : 12 <= lenN data) by (rewrite ED, !lenN_app; lia).
  eapply head_begins; [|exact B|]. { subst f. destruct be; cbn; auto. } eapply id3_same; eauto. intros st ex X. unfold id3_context in X.
  assert (NX : forall c z, IffModel.next be m (chunks_new data 0 (lenN data)) = Ok (Some c, z) -> k_size c = dec32 be (takeN 4 (dropN 4 data))).
  { intros c z. unfold chunks_new, IffModel.next. replace (dropN 4 data) with (s ++ b ++ r) by (rewrite ED; symmetry; now apply dropN_app). rewrite (takeN_app _ 4) by auto.
    destruct (IffModel.skip _) as [q| |] eqn:SK; cbn [bind]; try discriminate. cbn in SK. injection SK as <-. destruct (_ <? 8); [discriminate|]. rewrite ED, read_exact_app by auto. cbn [iord bind].
    destruct (negb (valid_fourcc a)). { destruct (is_strict m); discriminate. } rewrite read_exact_app by auto. cbn [iord bind]. destruct (_ <? dec32 be s). { destruct (is_strict m); discriminate. } intros Q. injection Q as <- _. reflexivity. }
  destruct (IffModel.next be m (chunks_new data 0 (lenN data))) as [[[c|] z]| |]; cbn [bind] in X; try discriminate. specialize (NX c z eq_refl). destruct (lenN data <? k_size c + 8); [discriminate|].
  destruct (find_id3_chunk _ _ _ _) as [x| |]; cbn [bind] in X; try discriminate. injection X as <- _. lia.
Qed.
Print Assumptions C229_id3_chunk.

(** ** MP4 *)
Theorem C229_mp4 : forall g data tag m padding log, begins FMp4 data -> lenN data < 2 ^ 32 -> mp4_write data tag m padding = Ok log -> unclaimed g (takeN 36 (apply_log data log)) -> format_of g (apply_log data log) = Ok FMp4.
Proof.
  intros g data tag m padding log B L W U. apply format_begins; auto. inversion B; subst data. apply mp4_front in W as [T _]; auto.
  rewrite <- (takeN_dropN _ 8 (apply_log _ log)), T. rewrite app_assoc, (takeN_app _ 8) by (rewrite lenN_app, be_enc_len; reflexivity). rewrite <- app_assoc. now constructor.
Qed.
Print Assumptions C229_mp4.

(** ** Ogg *)
Definition ogg_type (f : ogg_format) : ftype := match f with Opus => FOpus | OVorbis => FVorbis | Speex => FSpeex end.
Theorem C229_ogg : forall g f t hp ap tail x vb extra others new, ogg_layout f hp ap tail (head_sig f ++ x) vb extra others -> 1 <= lenN x -> lenN x < 247 ->
  Forall (fun i => str_ok (fst i) /\ str_ok (snd i)) (vc_items t) -> create_metadata_packet (saved_tag vb t) (comment_sig f) (has_framing f) = Ok new ->
  lenN ap + lenN (head_sig f ++ x) + lenN new + lenN (concat others) + 3 <= 2 ^ 32 ->
  exists log, ogg_write f (ogg_data hp ap tail) t = Ok log /\ (unclaimed g (takeN 36 (apply_log (ogg_data hp ap tail) log)) -> format_of g (apply_log (ogg_data hp ap tail) log) = Ok (ogg_type f)).
Proof.
  intros g f t hp ap tail x vb extra others new LY L1 L2 I CP B. destruct (save_ok f t hp ap tail _ vb extra others new LY I CP B) as (first & np & log & _ & W & OW & _ & A & _). exists log. split; auto. intros U. apply format_begins; auto.
  assert (LS : lenN (head_sig f) = 8 \/ lenN (head_sig f) = 7) by (destruct f; auto). apply write_first in W as (h & r & LH & E). 2:{ rewrite lenN_app. lia. }
  rewrite A, E. replace (($"OggS" ++ h ++ [1] ++ [lenN (head_sig f ++ x)] ++ (head_sig f ++ x) ++ r) ++ bytes_of (renumber (lenN np) ap)) with (ogg_page h (head_sig f ++ x) ++ r ++ bytes_of (renumber (lenN np) ap)) by (unfold ogg_page; now rewrite <- !app_assoc).
  destruct f; now constructor.
Qed.
Print Assumptions C229_ogg.

(** ** Behind an ID3v2 tag without a footer *)
Definition tag_at_start (T : bytes) : Prop := exists major flags n body, (major = 2 \/ major = 3 \/ major = 4) /\ flag flags 0x40 = false /\ flag flags 0x10 = false /\ n < 2 ^ 32 /\ lenN body = unsynch32 n /\
  T = hdr_bytes major 0 flags n ++ body.
Definition behind (d : bytes) : option ftype :=
  let ident := takeN 4 (d ++ [0; 0; 0; 0]) in
  if list_eqb (takeN 3 ident) ($"MAC") then Some FApe else if list_eqb ident ($"fLaC") then Some FFlac else if list_eqb ident ($"MPCK") || list_eqb (takeN 3 ident) ($"MP+") then Some FMpc
  else fst (check_mpeg_or_aac DEFAULT_MAX_JUNK_BYTES (mkCu d 0)).
Lemma format_behind : forall g T d, tag_at_start T -> unclaimed g (takeN 36 (T ++ d)) -> format_of g (T ++ d) = match behind d with Some f => Ok f | None => Err WUnknown end.
Proof.
  intros g T d (major & flags & n & body & M & F4 & F1 & Hn & LB & ET) U. set (t := T ++ d) in *.
  assert (E1 : t = 73 :: 68 :: 51 :: major :: 0 :: flags :: be_enc 4 n ++ body ++ d) by (unfold t; rewrite ET; unfold hdr_bytes; rewrite <- !app_assoc; reflexivity).
  assert (L4 : lenN (be_enc 4 n) = 4) by (rewrite be_enc_len; reflexivity).
  assert (Q : quick_type_guess t = None).
  { rewrite E1, quick_73. replace (list_eqb (slice 4 8 _) ($"ftyp")) with false; [now rewrite andb_false_r|]. symmetry. apply list_eqb_neq. intros E. change (0 :: takeN 3 (flags :: be_enc 4 n ++ body ++ d) = $"ftyp") in E. discriminate E. }
  assert (L10 : 10 <= lenN t) by (rewrite E1, !lenN_cons, !lenN_app; lia).
  assert (FB : from_buffer_inner (takeN 36 t) = Some (PrecededById3 (unsynch32 n))).
  { unfold from_buffer_inner. rewrite quick_take, Q, len_take, !slice_take by lia. replace (10 <=? lenN t) with true by lia.
    assert (S0 : slice 0 3 t = $"ID3") by (rewrite E1; reflexivity). assert (S6 : slice 6 10 t = be_enc 4 n). { rewrite E1. unfold slice. change (dropN 6 _) with (be_enc 4 n ++ body ++ d). now apply takeN_app. }
    rewrite S0, S6, be_dec_enc by (exact Hn). rewrite E1. reflexivity. }
  unfold format_of, verified, guess_file_type. cbn [probe_new pb_junk pb_in pb_type]. unfold guess_inner. assert (RT : rest (mkCu t 0) = t) by (unfold rest; cbn; apply dropN_0). rewrite RT, (unclaimed_find _ _ U), FB.
  pose proof (unsynch32_bound n) as UB. replace (2 ^ 32 <=? 10 + unsynch32 n) with false by lia. unfold to. cbn [u_pos u_data]. set (p := 0 + (10 + unsynch32 n)).
  assert (RP : rest (mkCu t p) = d). { unfold rest. cbn [u_pos u_data]. unfold t. apply dropN_app. rewrite ET. unfold hdr_bytes. rewrite !lenN_app, L4, LB. change (lenN ($"ID3")) with 3. change (lenN [major; 0; flags]) with 3. unfold p. lia. }
  rewrite RP, pad4. unfold behind. assert (CK : fst (check_mpeg_or_aac DEFAULT_MAX_JUNK_BYTES (mkCu t p)) = fst (check_mpeg_or_aac DEFAULT_MAX_JUNK_BYTES (mkCu d 0))).
  { unfold check_mpeg_or_aac. rewrite RP. replace (rest (mkCu d 0)) with d by (unfold rest; cbn; now rewrite dropN_0). now destruct (search_for_frame_sync _). }
  destruct (list_eqb (takeN 3 _) ($"MAC")); [reflexivity|]. destruct (list_eqb _ ($"fLaC")); [reflexivity|]. destruct (_ || _); [reflexivity|]. rewrite <- CK. now destruct (check_mpeg_or_aac _ (mkCu t p)) as [[f|] u].
Qed.
(** A file with an ID3v2 tag (without a footer) gets another one: MPEG, AAC *)
Lemma new_tag : forall w f l tag, tag_flags_ok (w_v23 w) f -> tf_footer f = false -> l <> [] -> create_tag w f l = Ok tag -> lenN tag < 2 ^ 32 -> tag_at_start tag.
Proof.
  intros w f l tag FO NF NE C L. destruct (tag_shape w f l tag FO NE C L) as (fl & z & body & E & Hz & F4 & F1 & LB). rewrite NF in *. exists (if w_v23 w then 3 else 4), fl, z, body. repeat split; auto. destruct (w_v23 w); auto. lia.
Qed.
Theorem C229_id3v2_replaced : forall g w window f l old audio log tag, tag_at_start old -> let data := old ++ audio in
  tag_flags_ok (w_v23 w) f -> tf_footer f = false -> l <> [] -> create_tag w f l = Ok tag -> lenN tag < 2 ^ 32 -> 3 <= window -> save_id3v2 w window f l data = Ok log ->
  unclaimed g (takeN 36 data) -> unclaimed g (takeN 36 (apply_log data log)) -> format_of g (apply_log data log) = format_of g data.
Proof.
  intros g w window f l old audio log tag TO data FO NF NE C L W S U1 U2. pose proof (new_tag _ _ _ _ FO NF NE C L) as TN.
  assert (R : apply_log data log = tag ++ audio).
  { destruct TO as (major & flags & n & body & M & F4 & F1 & Hn & LB & ET). unfold data in *. rewrite ET, <- app_assoc in *.
    destruct (C148_replaced w window f l [] major 0 flags n body audio log) as (tag' & C' & A); auto.
    - rewrite LB, F1, andb_false_r. lia.
    - intros p q H. destruct p; auto. apply (f_equal (@length N)) in H. rewrite !app_length in H. cbn in H. lia.
    - rewrite C in C'. injection C' as <-. exact A. }
  rewrite R in *. unfold data in *. now rewrite !format_behind.
Qed.
Print Assumptions C229_id3v2_replaced.
(** The first tag of an MPEG or AAC file without one *)
Lemma quick_mp : forall c l, let d := 77 :: 80 :: c :: l in quick_type_guess d =
  if (8 <=? lenN d) && list_eqb (slice 4 8 d) ($"ftyp") then Some FMp4 else if starts_with ($"MPCK") d || starts_with ($"MP+") d then Some FMpc else None.
Proof. reflexivity. Qed.
Lemma starts_app : forall p r : bytes, starts_with p (p ++ r) = true.
Proof. intros p r. unfold starts_with. rewrite takeN_app by reflexivity. rewrite (proj2 (list_eqb_eq p p) eq_refl), lenN_app. cbn [andb]. lia. Qed.
Lemma quick_mpck : forall r, quick_type_guess ($"MPCK" ++ r) = Some FMp4 \/ quick_type_guess ($"MPCK" ++ r) = Some FMpc.
Proof. intros r. change (of_string "MPCK" ++ r) with (77 :: 80 :: 67 :: 75 :: r). rewrite quick_mp. change (77 :: 80 :: 67 :: 75 :: r) with ($"MPCK" ++ r). rewrite starts_app. destruct (_ && _); auto. Qed.
Lemma quick_mpplus : forall r, quick_type_guess ($"MP+" ++ r) = Some FMp4 \/ quick_type_guess ($"MP+" ++ r) = Some FMpc.
Proof. intros r. change (of_string "MP+" ++ r) with (77 :: 80 :: 43 :: r). rewrite quick_mp. change (77 :: 80 :: 43 :: r) with ($"MP+" ++ r). rewrite starts_app, orb_true_r. destruct (_ && _); auto. Qed.
Lemma quick_sync : forall d f, In f [FMpeg; FAac] -> quick_type_guess d = Some f -> fst (check_mpeg_or_aac DEFAULT_MAX_JUNK_BYTES (mkCu d 0)) = Some f.
Proof.
  intros d f I Q. destruct d as [|b0 d]; [discriminate|]. unfold quick_type_guess in Q. destruct (_ && starts_with ($"MAC") _). { injection Q as <-. cbn in I. intuition discriminate. }
  destruct ((b0 =? 255) && _ && _) eqn:SY.
  - apply andb_true_iff in SY as [SY V]. apply andb_true_iff in SY as [E L]. apply N.eqb_eq in E. subst b0. destruct d as [|b d]; [discriminate L|]. unfold check_mpeg_or_aac, rest. cbn [u_pos u_data]. rewrite dropN_0.
    change (takeN DEFAULT_MAX_JUNK_BYTES (255 :: b :: d)) with (255 :: b :: takeN 1022 d). cbn [search_for_frame_sync sync_scan nth] in *. rewrite V. rewrite dropN_0. cbn [nth fst]. rewrite <- Q. now destruct (_ && _).
  - exfalso. cbn in I. repeat match type of Q with (if ?b then _ else _) = _ => destruct b end; try discriminate Q; injection Q as <-; intuition discriminate.
Qed.
Lemma found_behind : forall g d f, In f [FMpeg; FAac] -> unclaimed g (takeN 36 d) -> takeN 3 d <> $"ID3" -> format_of g d = Ok f -> behind d = Some f.
Proof.
  intros g d f I U N3 F. apply format_guess in F as (u & F). unfold guess_inner in F. assert (RA : rest (mkCu d 0) = d) by (unfold rest; cbn; apply dropN_0). rewrite RA, (unclaimed_find _ _ U) in F.
  assert (X : (quick_type_guess d = Some f \/ quick_type_guess d = None) /\ fst (check_mpeg_or_aac DEFAULT_MAX_JUNK_BYTES (mkCu d 0)) = Some f).
  { unfold from_buffer_inner in F. rewrite quick_take in F. destruct (takeN 36 d) eqn:E; [discriminate|]. rewrite <- E in F. destruct (quick_type_guess d) as [f'|] eqn:Q.
    - injection F as -> _. split; auto. now apply quick_sync.
    - rewrite slice_take in F by lia. replace (list_eqb (slice 0 3 d) ($"ID3")) with false in F. 2:{ symmetry. apply list_eqb_neq. unfold slice. now rewrite dropN_0. }
      rewrite andb_false_r in F. destruct (check_mpeg_or_aac _ _) as [o v]. injection F as -> _. auto. }
  destruct X as [Q C]. unfold behind. rewrite C. assert (NQ : quick_type_guess d <> Some FApe /\ quick_type_guess d <> Some FFlac /\ quick_type_guess d <> Some FMpc /\ quick_type_guess d <> Some FMp4).
  { cbn in I. repeat split; intros Z; destruct Q as [Q|Q]; rewrite Q in Z; try discriminate Z; injection Z as ->; intuition discriminate. }
  destruct NQ as (Q1 & Q2 & Q3 & Q4).
  destruct (list_eqb (takeN 3 _) ($"MAC")) eqn:E1. { exfalso. apply list_eqb_eq in E1. rewrite take_take in E1 by lia. apply pad_prefix in E1 as (r & ->); [|reflexivity|lia|repeat constructor; discriminate]. apply Q1. apply quick_begins. constructor. }
  destruct (list_eqb (takeN 4 _) ($"fLaC")) eqn:E2. { exfalso. apply list_eqb_eq in E2. apply pad_prefix in E2 as (r & ->); [|reflexivity|lia|repeat constructor; discriminate]. apply Q2. apply quick_begins. constructor. }
  destruct (list_eqb (takeN 4 _) ($"MPCK")) eqn:E3. { exfalso. apply list_eqb_eq in E3. apply pad_prefix in E3 as (r & ->); [|reflexivity|lia|repeat constructor; discriminate]. destruct (quick_mpck r); auto. }
  destruct (list_eqb (takeN 3 _) ($"MP+")) eqn:E4. { exfalso. apply list_eqb_eq in E4. rewrite take_take in E4 by lia. apply pad_prefix in E4 as (r & ->); [|reflexivity|lia|repeat constructor; discriminate]. destruct (quick_mpplus r); auto. }
  reflexivity.
Qed.
Theorem C229_id3v2_added : forall g w window f l data log tag ft, In ft [FMpeg; FAac] -> format_of g data = Ok ft -> (forall p q, takeN window data <> p ++ $"ID3" ++ q) -> 3 <= window ->
  tag_flags_ok (w_v23 w) f -> tf_footer f = false -> l <> [] -> create_tag w f l = Ok tag -> lenN tag < 2 ^ 32 -> save_id3v2 w window f l data = Ok log ->
  unclaimed g (takeN 36 data) -> unclaimed g (takeN 36 (apply_log data log)) -> format_of g (apply_log data log) = Ok ft.
Proof.
  intros g w window f l data log tag ft I F NI W3 FO NF NE C L S U1 U2. pose proof (new_tag _ _ _ _ FO NF NE C L) as TN. destruct (C148_added w window f l data log NI S) as (tag' & C' & A). rewrite C in C'. injection C' as <-.
  rewrite A in *. rewrite format_behind by auto. rewrite (found_behind g data ft); auto. intros E. apply (NI [] (dropN 3 (takeN window data))). rewrite <- E. rewrite <- (take_take _ 3 window) by auto. cbn [app]. now rewrite takeN_dropN.
Qed.
Print Assumptions C229_id3v2_added.
(** The tag is removed from in front of audio that begins with a frame. *)
Theorem C229_id3v2_removed : forall g w window f old audio log ft, tag_at_start old -> let data := old ++ audio in In ft [FMpeg; FAac] -> begins ft audio -> 3 <= window -> save_id3v2 w window f [] data = Ok log ->
  unclaimed g (takeN 36 audio) -> format_of g (apply_log data log) = Ok ft.
Proof.
  intros g w window f old audio log ft TO data I B W S U. destruct TO as (major & flags & n & body & M & F4 & F1 & Hn & LB & ET). unfold data in *. rewrite ET, <- app_assoc in *.
  destruct (C148_replaced w window f [] [] major 0 flags n body audio log) as (tag' & C' & A); auto.
  - rewrite LB, F1, andb_false_r. lia.
  - intros p q H. destruct p; auto. apply (f_equal (@length N)) in H. rewrite !app_length in H. cbn in H. lia.
  - injection C' as <-. cbn [app] in A. rewrite A. now apply format_begins.
Qed.
Print Assumptions C229_id3v2_removed.

(** ** FLAC, also behind an ID3v2 tag *)
Theorem C229_flac : forall g front r vendor items pics padding log, front = [] \/ tag_at_start front -> let data := front ++ $"fLaC" ++ r in
  FlacModel.flac_write data vendor items pics padding = Ok log -> unclaimed g (takeN 36 (apply_log data log)) -> format_of g (apply_log data log) = Ok FFlac.
Proof.
  intros g front r vendor items pics padding log FR data W U.
  assert (FD : exists h c, find_id3v2 data 0 false None = Ok (h, c, lenN front)).
  { destruct FR as [->|(major & flags & n & body & M & F4 & F1 & Hn & LB & ET)].
    - unfold FlacModel.flac_write in W. unfold find_id3v2 in *. rewrite dropN_0 in *. unfold header_parse in *. unfold data in *. cbn [app] in *. unfold read_exact in *. destruct (N.leb_spec 10 (lenN ($"fLaC" ++ r))) as [L|L].
      2:{ exfalso. revert W. unfold seek_back. rewrite lenN_nil. replace (N.max 0 _) with (lenN ($"fLaC" ++ r)) by lia. destruct (N.ltb_spec (lenN ($"fLaC" ++ r)) 10); [discriminate|lia]. }
      replace (negb (list_eqb (takeN 3 (takeN 10 ($"fLaC" ++ r))) ($"ID3"))) with true by reflexivity. unfold seek_back. rewrite lenN_dropN. destruct (N.ltb_spec (N.max 0 (lenN ($"fLaC" ++ r) - (lenN ($"fLaC" ++ r) - 10))) 10); [lia|]. exists None, None. f_equal. f_equal. rewrite lenN_nil. lia.
    - unfold find_id3v2. rewrite dropN_0. unfold data. rewrite ET, <- app_assoc. rewrite parse_hdr by auto. 
      replace (if major =? 2 then _ else _) with (Some (if major =? 2 then V2 else if major =? 3 then V3 else V4)) by (destruct M as [->|[->| ->]]; reflexivity). rewrite F4, !andb_false_r. cbv zeta. unfold header_ext. cbn [N.ltb andb]. change (0 <? 0) with false. cbn [andb h_flags tf_footer h_size]. rewrite F1, andb_false_r.
      cbn [bind]. do 2 eexists. apply (f_equal (fun q => Ok (_, _, q))). rewrite !lenN_app. unfold hdr_bytes. rewrite !lenN_app, be_enc_len, LB. change (lenN ($"ID3")) with 3. change (lenN [major; 0; flags]) with 3. change (lenN ($"fLaC")) with 4. lia. }
  destruct FD as (h & c & FD). destruct (flac_same _ _ _ _ _ _ _ _ _ W FD) as (T & L & _).
  assert (TD : takeN (lenN front + 4) data = front ++ $"fLaC") by (unfold data; rewrite app_assoc; apply takeN_app; rewrite lenN_app; reflexivity).
  set (out := apply_log data log) in *. assert (EO : out = front ++ $"fLaC" ++ dropN (lenN front + 4) out) by (rewrite <- (takeN_dropN _ (lenN front + 4) out) at 1; now rewrite T, TD, <- app_assoc).
  destruct FR as [->|TF]. { apply format_begins; auto. rewrite EO. constructor. }
  rewrite EO in *. rewrite format_behind by auto. reflexivity.
Qed.
Print Assumptions C229_flac.

(** ** Examples and counterexamples *)
Definition changed {E} (data : bytes) (w : res E (list fop)) : res werr ftype := match w with Ok log => format_of no_resolvers (apply_log data log) | Err _ => Err WIo | Panic => Panic end.
Definition title : list frame := [FText (FrameThm.head ($"TIT2")) Latin1 ($"A")].
Definition aiff1 : bytes := $"FORM" ++ be_enc 4 12 ++ $"AIFF" ++ $"ABCD" ++ be_enc 4 0.
Definition flac1 : bytes := hdr_bytes 4 0 0 2 ++ [0; 0] ++ $"fLaC" ++ [0; 0; 0; 34] ++ repeat 1 34 ++ [132; 0; 0; 8] ++ repeat 0 8.
Example C229_example :
  changed ([255; 251; 1] ++ repeat 0 40) (write_id3v1 ([255; 251; 1] ++ repeat 0 40) (mkV1 (Some ($"a")) None None None None None None) false) = Ok FMpeg /\
  changed aiff1 (write_id3_chunk true Strict true false aiff1 [1; 2]) = Ok FAiff /\
  changed ([255; 251; 1; 2; 3; 4; 5; 6; 7; 8]) (save_id3v2 FrameThm.w24 1024 no_flags title [255; 251; 1; 2; 3; 4; 5; 6; 7; 8]) = Ok FMpeg /\
  changed flac1 (FlacModel.flac_write flac1 [] [($"TITLE", $"x")] [] None) = Ok FFlac.
Proof. repeat split; vm_compute; reflexivity. Qed.
(** The size in the header of a WAV file does not cover the type: the chunk is put in front of it. *)
Definition short_wav : bytes := $"RIFF" ++ le_enc 4 0 ++ $"WAVE" ++ repeat 0 8.
Theorem C229_short_size_refuted : begins FWav short_wav /\ format_of no_resolvers short_wav = Ok FWav /\ changed short_wav (write_id3_chunk false BestAttempt false false short_wav [1; 2]) = Err WUnknown.
Proof. split. { apply (b_wav (le_enc 4 0) (repeat 0 8)). reflexivity. } split; vm_compute; reflexivity. Qed.
Print Assumptions C229_short_size_refuted.
(** An empty APE tag without a header: 32 bytes of audio in front of it are taken for the header (C69), here all of them. *)
Definition all_ape : bytes := $"MAC " ++ repeat 0 28 ++ $"APETAGEX" ++ le_enc 4 2000 ++ le_enc 4 32 ++ le_enc 4 0 ++ le_enc 4 0 ++ repeat 0 8.
Theorem C229_whole_file_refuted : format_of no_resolvers all_ape = Ok FApe /\ changed all_ape (ape_write all_ape true true false []) = Err WUnknown.
Proof. split; vm_compute; reflexivity. Qed.
Print Assumptions C229_whole_file_refuted.
(** The footer of the new ID3v2 tag counts as junk. *)
Definition late : bytes := repeat 0 1015 ++ [255; 251].
Theorem C229_footer_refuted : format_of no_resolvers late = Ok FMpeg /\ changed late (save_id3v2 FrameThm.w24 1024 (mkTFlags false false true false None) title late) = Err WUnknown.
Proof. split; vm_compute; reflexivity. Qed.
Print Assumptions C229_footer_refuted.
(** Without the tag in front something else is recognised. *)
Definition hidden : bytes := hdr_bytes 4 0 0 1 ++ [0] ++ $"FORM" ++ [0; 0; 0; 4] ++ $"AIFF" ++ [255; 251; 144; 0].
Theorem C229_hidden_refuted : format_of no_resolvers hidden = Ok FMpeg /\ changed hidden (save_id3v2 FrameThm.w24 1024 no_flags [] hidden) = Ok FAiff.
Proof. split; vm_compute; reflexivity. Qed.
Print Assumptions C229_hidden_refuted.
