(** Property theorems for OGG files: saving (C95-C98). *)
From Verif Require Import BaseLemmas StrLemmas TextProof PictureThm OggSpec OggCrcProof OggProof OggReadProof OggPacketsProof OggPagProof OggFinal VorbisThm FlacMoveThm OggFileModel OggFileProof.

(** The same pages numbered consecutively from [n], with correct checksums. *)
Definition renumbered (n : N) (old new : list page) : Prop :=
  length new = length old /\
  forall i p, nth_error old i = Some p -> exists q, nth_error new i = Some q /\
    pg_flag q = pg_flag p /\ pg_abgp q = pg_abgp p /\ pg_serial q = pg_serial p /\ pg_segs q = pg_segs p /\ pg_content q = pg_content p /\
    pg_seq q = n + N.of_nat i /\ pg_cksum q = crc_spec (as_bytes (set_cksum 0 q)).
Lemma renumber_spec : forall ps n, renumbered n ps (renumber n ps).
Proof.
  induction ps as [|p ps IH]; intros n; cbn [renumber]. { split; auto. intros [|] ? H; discriminate. }
  destruct (IH (n + 1)) as [L R]. split. cbn [length]. lia. intros [|i] q H; cbn [nth_error] in *.
  - inversion H; subst. eexists. split; [reflexivity|]. cbn [crc_page set_cksum set_seq pg_flag pg_abgp pg_serial pg_segs pg_content pg_seq pg_cksum]. repeat split; auto. lia.
  - destruct (R i q H) as (q' & A & B1 & B2 & B3 & B4 & B5 & B6 & B7). exists q'. repeat split; auto. lia.
Qed.

(** The vendor string that is kept: the file's, if it is UTF-8. *)
Definition kept_vendor (vb : bytes) : str := match utf8_dec vb with Some s => s | None => [] end.
Definition saved_tag (vb : bytes) (t : vc) : vc := mkVc (kept_vendor vb) (vc_items t) (vc_pics t).
Definition has_framing (f : ogg_format) : bool := match f with OVorbis => true | _ => false end.
(** A file of format [f]: the header pages hold the identification packet, the comment packet (with vendor [vb]) and,
    for Vorbis, the setup packet; the other pages and [tail], where no page can be read, follow. *)
Record ogg_layout (f : ogg_format) (hp ap : list page) (tail p0 vb extra : bytes) (rest : list bytes) : Prop := {
  ol_header : holds hp (p0 :: (comment_sig f ++ le_enc 4 (lenN vb) ++ vb ++ extra) :: rest);
  ol_count : lenN rest + 2 = header_count f;
  ol_filled : Forall (fun p => p <> []) (p0 :: rest);
  ol_vendor : lenN vb < 2 ^ 32;
  ol_pages : Forall page_ok ap;
  ol_bytes : bytes_ok (bytes_of hp ++ bytes_of ap);
  ol_tail : exists e, page_read 0 tail = Err e }.
Definition ogg_data (hp ap : list page) (tail : bytes) := bytes_of hp ++ bytes_of ap ++ tail.

Lemma delace_count : forall segs P, lenN segs + P <= lenN (fst (delace P segs)) + sumN (fst (delace P segs)) + snd (delace P segs).
Proof.
  induction segs as [|a segs IH]; intros P; cbn [delace].
  - cbn [fst snd sumN]. change (lenN (@nil N)) with 0. lia.
  - destruct (N.ltb_spec a 255).
    + specialize (IH 0). destruct (delace 0 segs). cbn [fst snd sumN] in *. rewrite !lenN_cons. lia.
    + specialize (IH (P + a)). rewrite lenN_cons. lia.
Qed.
Lemma pages_count : forall ps pk, holds ps pk -> lenN ps <= lenN pk + lenN (concat pk).
Proof.
  intros ps pk (O & D & _). pose proof (delace_count (segs_of ps) 0) as H. rewrite D in H. cbn [fst snd] in H. rewrite sum_concat, lenN_map in H.
  assert (lenN ps <= lenN (segs_of ps)); [|lia]. clear -O. induction O as [|p ps H O IH]; cbn [segs_of flat_map]; [reflexivity|]. fold (segs_of ps).
  rewrite lenN_app, lenN_cons. destruct H as (_ & _ & _ & _ & _ & H & _). cbn [fields f_segs] in H. lia.
Qed.
Lemma comment_sig_ok : forall f, bytes_ok (comment_sig f).
Proof. intros f. apply Forall_forall. intros x H. assert (F : forallb (fun c => c <? 256) (comment_sig f) = true) by now destruct f. rewrite forallb_forall in F. apply F in H. unfold byte_ok. lia. Qed.
Lemma verify_app : forall s r, verify_signature (s ++ r) s = Ok Datatypes.tt.
Proof.
  intros. unfold verify_signature. rewrite takeN_app by auto. rewrite list_eqb_refl. cbn [negb]. destruct (N.ltb_spec (lenN (s ++ r)) (lenN s)); auto.
  rewrite lenN_app in H. lia.
Qed.
Lemma filled_filter : forall l : list bytes, Forall (fun p => p <> []) l -> filter (@OggPagProof.nonempty N) l = l.
Proof. induction 1; cbn [filter]; auto. destruct x; [congruence|]. cbn [OggPagProof.nonempty]. now f_equal. Qed.
Lemma app_sig_ne : forall f (x : bytes) n v, comment_sig f ++ le_enc 4 n ++ v ++ x <> [].
Proof. intros. intro H. apply (f_equal lenN) in H. rewrite !lenN_app, le_enc_len in H. change (lenN (@nil N)) with 0 in H. lia. Qed.
Lemma content_bytes : forall ps, Forall page_bytes_ok ps -> bytes_ok (content_of ps).
Proof. induction 1 as [|p ps [_ B] F IH]; cbn [content_of flat_map]. constructor. apply bytes_ok_app. auto. Qed.
Lemma utf8_kept : forall vb, bytes_ok vb -> str_ok (kept_vendor vb).
Proof. intros. unfold kept_vendor. destruct (utf8_dec vb) eqn:E. apply utf8_dec_spec in E; tauto. constructor. Qed.

(** The header written for the packets. *)
Definition new_header (serial : N) (pk : list bytes) (np : list page) : Prop :=
  holds np pk /\
  Forall (fun p => pg_serial p = serial /\ pg_cksum p = crc_spec (as_bytes (set_cksum 0 p))) np /\
  map pg_seq np = map (fun i => N.of_nat i mod 2 ^ 32) (seq 0 (length np)) /\
  flags_ok true false true false (map (fun p => (pg_flag p, pg_segs p)) np) /\
  (forall p, In p np -> packet_ends_on (pg_segs p) -> pg_abgp p = 0).

Lemma pk_some_nth : forall p i, pk_wf p -> pk_some p (N.of_nat i) = match nth_error (pk_abs p) i with Some c => Ok c | None => Err OMissing end.
Proof. intros. unfold pk_some. rewrite pk_get_spec by auto. reflexivity. Qed.

Lemma save_ok : forall f t hp ap tail p0 vb extra rest new,
  ogg_layout f hp ap tail p0 vb extra rest ->
  Forall (fun i => str_ok (fst i) /\ str_ok (snd i)) (vc_items t) ->
  create_metadata_packet (saved_tag vb t) (comment_sig f) (has_framing f) = Ok new ->
  lenN ap + lenN p0 + lenN new + lenN (concat rest) + 3 <= 2 ^ 32 ->
  exists first np log,
    nth_error hp 0 = Some first /\
    write_to (mkPackets (concat (p0 :: new :: rest)) (map lenN (p0 :: new :: rest))) (pg_serial first) 0 FIRST_PAGE = Ok (bytes_of np, lenN np) /\
    ogg_write f (ogg_data hp ap tail) t = Ok log /\
    log = OpTrunc 0 :: appends 0 (bytes_of np :: map as_bytes (renumber (lenN np) ap)) /\
    apply_log (ogg_data hp ap tail) log = bytes_of np ++ bytes_of (renumber (lenN np) ap) /\
    new_header (pg_serial first) (p0 :: new :: rest) np /\ Forall page_bytes_ok np /\ lenN np + lenN ap <= 2 ^ 32.
Proof.
  intros f t hp ap tail p0 vb extra rest new [H C F V P B [e T]] I CP L.
  set (c := comment_sig f ++ le_enc 4 (lenN vb) ++ vb ++ extra) in *.
  set (data := ogg_data hp ap tail).
  destruct (first_header hp _ (bytes_of ap ++ tail) H ltac:(discriminate)) as (p & hp' & E & PO & HR).
  apply bytes_ok_app in B as [B1 B2].
  assert (BH : bytes_ok (concat (p0 :: c :: rest))).
  { destruct H as (H1 & H2 & H3). rewrite <- H3. apply content_bytes, bytes_pages; auto. }
  cbn [concat] in BH. apply bytes_ok_app in BH as [BP BH]. apply bytes_ok_app in BH as [BC BR].
  assert (BV : bytes_ok vb). { unfold c in BC. apply bytes_ok_app in BC as [_ BC]. apply bytes_ok_app in BC as [_ BC]. apply bytes_ok_app in BC as [BC _]. auto. }
  assert (NB : bytes_ok new). { eapply packet_ok; [| | |exact CP]. apply comment_sig_ok. now apply utf8_kept. exact I. }
  assert (NN : new <> []).
  { unfold create_metadata_packet in CP. destruct (create_comments _) as [x| |]; cbn [bind] in CP; try discriminate. destruct (create_pictures _) as [y| |]; cbn [bind] in CP; try discriminate.
    destruct (_ <? _); [discriminate|]. unfold vendor_bytes in CP. rewrite <- app_assoc in CP. intros ->. 
    apply (f_equal (fun r => match r with Ok x => lenN x | _ => 0 end)) in CP. rewrite !lenN_app, !le_enc_len in CP. change (lenN (@nil N)) with 0 in CP. lia. }
  destruct (holds_written (p0 :: new :: rest) (pg_serial p)) as (np & W & HN & HF & HS & HG & HA).
  { cbn [concat]. apply bytes_ok_app. split; auto. apply bytes_ok_app. split; auto. }
  { destruct PO as (_ & _ & X & _). exact X. }
  rewrite filled_filter in HN. 2:{ inversion F; subst. repeat (apply Forall_cons; auto). }
  pose proof (pages_count _ _ HN) as PC. rewrite !lenN_cons in PC. cbn [concat] in PC. rewrite !lenN_app in PC.
  assert (LR : lenN rest <= 1) by (destruct f; cbn [header_count] in C; lia).
  assert (LN : lenN np + lenN ap <= 2 ^ 32) by lia.
  destruct (pk_whole (p0 :: c :: rest)) as [WF AB].
  exists p, np, (OpTrunc 0 :: appends 0 (bytes_of np :: map as_bytes (renumber (lenN np) ap))).
  split. { now rewrite E. } split; [exact W|]. split.
  - unfold ogg_write, data, ogg_data. rewrite HR. cbn [opg bind].
    replace (Z.of_N (header_count f)) with (Z.of_N (lenN (p0 :: c :: rest))) by (rewrite !lenN_cons; lia).
    rewrite (read_count_exact hp (p0 :: c :: rest) (bytes_of ap ++ tail)) by (auto; discriminate). cbn [opg bind].
    change 1 with (N.of_nat 1) at 1. rewrite pk_some_nth by auto. rewrite AB. cbn [nth_error bind].
    assert (VS : (match f with Speex => Ok Datatypes.tt | _ => verify_signature c (comment_sig f) end) = Ok Datatypes.tt).
    { unfold c. rewrite verify_app. now destruct f. }
    rewrite VS. cbn [bind]. unfold c at 1. rewrite dropN_app by auto. rewrite read_le_app by auto. cbn [ord bind].
    rewrite read_exact_app by auto. cbn [ord bind]. fold (kept_vendor vb). fold (saved_tag vb t).
    change (match f with OVorbis => true | _ => false end) with (has_framing f). rewrite CP.
    pose proof (pk_set_spec (mkPackets (concat (p0 :: c :: rest)) (map lenN (p0 :: c :: rest))) 1 new WF) as PS. rewrite AB in PS. cbn [nth_error] in PS.
    clear PS.
    assert (PS : pk_set (mkPackets (concat (p0 :: c :: rest)) (map lenN (p0 :: c :: rest))) 1 new = Ok (true, mkPackets (concat (p0 :: new :: rest)) (map lenN (p0 :: new :: rest)))).
    { unfold pk_set. change 1 with (N.of_nat 1). rewrite span_spec. cbn [pk_sizes map nth_error firstn sumN pk_content concat]. rewrite N.add_0_r, !lenN_app.
      destruct (N.ltb_spec (lenN p0 + lenN c) (lenN p0)); [lia|]. destruct (N.ltb_spec (lenN p0 + (lenN c + lenN (concat rest))) (lenN p0 + lenN c)); [lia|]. cbn [orb].
      rewrite takeN_app by auto. rewrite (app_assoc p0 c), (dropN_app _ _ (p0 ++ c)) by (rewrite lenN_app; auto). cbn [N.to_nat Pos.to_nat Pos.iter_op update_nth]. reflexivity. }
    rewrite PS. cbn [opg bind pg_serial]. rewrite W. cbn [opg bind].
    erewrite copy_ok; [reflexivity|rewrite app_length; lia|auto|now apply bytes_pages|exact T|auto].
  - split; [reflexivity|]. split. { rewrite trunc_appends. cbn [concat]. now rewrite concat_bytes. }
    split. { split; [exact HN|]. split; [eapply Forall_impl; [|exact HF]; cbv beta; tauto|]. split; [exact HS|]. split; [exact HG|exact HA]. }
    split; auto. eapply Forall_impl; [|exact HF]. unfold page_bytes_ok. cbv beta. tauto.
Qed.

(** C95: saving replaces the comment packet (keeping the file's vendor) in a fresh header of the same stream, and keeps every
    following page: only the sequence number and the checksum change. *)
Theorem C95_save : forall f t hp ap tail p0 vb extra rest new,
  ogg_layout f hp ap tail p0 vb extra rest ->
  Forall (fun i => str_ok (fst i) /\ str_ok (snd i)) (vc_items t) ->
  create_metadata_packet (saved_tag vb t) (comment_sig f) (has_framing f) = Ok new ->
  lenN ap + lenN p0 + lenN new + lenN (concat rest) + 3 <= 2 ^ 32 ->
  exists first np ap' log,
    nth_error hp 0 = Some first /\ ogg_write f (ogg_data hp ap tail) t = Ok log /\
    apply_log (ogg_data hp ap tail) log = bytes_of np ++ bytes_of ap' /\
    new_header (pg_serial first) (p0 :: new :: rest) np /\ renumbered (lenN np) ap ap' /\ Forall page_ok ap'.
Proof.
  intros. destruct (save_ok f t hp ap tail p0 vb extra rest new) as (first & np & log & A & B & D & E & F & G & K & M); auto.
  exists first, np, (renumber (lenN np) ap), log. split; auto. split; auto. split; auto. split; auto. split. apply renumber_spec.
  destruct H. apply bytes_ok_app in ol_bytes0 as [_ B2]. eapply renumber_ok; auto. now apply bytes_pages.
Qed.
Print Assumptions C95_save.

(** A small Opus file *)
Definition pg (flag abgp serial sq : N) (content : bytes) : page := crc_page (mkPage 0 flag abgp serial sq [lenN content] 0 content 0).
Definition ex_head : bytes := $"OpusHead" ++ [1; 2; 56; 1; 128; 187; 0; 0; 0; 0; 0].
Definition ex_comments : bytes := $"OpusTags" ++ le_enc 4 3 ++ $"abc" ++ le_enc 4 0.
Definition ex_hp : list page := [pg 2 0 7 0 ex_head; pg 0 0 7 1 ex_comments].
Definition ex_ap : list page := [pg 0 960 7 2 [1; 2; 3]; pg 4 96312 7 3 [4; 5]].
Lemma ex_layout : forall tail, (exists e, page_read 0 tail = Err e) -> ogg_layout Opus ex_hp ex_ap tail ex_head ($"abc") (le_enc 4 0) [].
Proof.
  intros tail T. constructor; auto; try reflexivity.
  - split; [|split; vm_compute; reflexivity]. repeat constructor; vm_compute; reflexivity || discriminate.
  - constructor; [vm_compute; discriminate|constructor].
  - repeat constructor; vm_compute; reflexivity || discriminate.
  - apply Forall_forall. intros x I. assert (F : forallb (fun c => c <? 256) (bytes_of ex_hp ++ bytes_of ex_ap) = true) by (vm_compute; reflexivity).
    rewrite forallb_forall in F. apply F in I. unfold byte_ok. lia.
Qed.
Definition ex_tag : vc := mkVc ($"ignored") [($"TITLE", $"t")] [].
Example C95_ex : match create_metadata_packet (saved_tag ($"abc") ex_tag) (comment_sig Opus) false with
  | Ok new => new = $"OpusTags" ++ le_enc 4 3 ++ $"abc" ++ le_enc 4 1 ++ le_enc 4 7 ++ $"TITLE=t" /\
     match ogg_write Opus (ogg_data ex_hp ex_ap []) ex_tag with
     | Ok log => apply_log (ogg_data ex_hp ex_ap []) log = bytes_of [pg 2 0 7 0 ex_head; pg 0 0 7 1 new] ++ bytes_of ex_ap
     | _ => False
     end
  | _ => False
  end.
Proof. vm_compute. auto. Qed.

(** C96: what follows something that is no page is lost, silently... *)
Definition contains (x d : bytes) : bool := existsb (fun i => list_eqb (takeN (lenN x) (dropN (N.of_nat i) d)) x) (seq 0 (length d)).
Theorem C96_after_junk_refuted : ~ (forall f t hp ap junk ap2 p0 vb extra rest log,
  ogg_layout f hp ap (junk ++ bytes_of ap2) p0 vb extra rest -> Forall page_ok ap2 ->
  ogg_write f (ogg_data hp ap (junk ++ bytes_of ap2)) t = Ok log ->
  contains (content_of ap2) (apply_log (ogg_data hp ap (junk ++ bytes_of ap2)) log) = true).
Proof.
  intro H. specialize (H Opus ex_tag ex_hp ex_ap [0] [pg 0 5 7 9 [21; 22; 23; 24; 25; 26]] ex_head ($"abc") (le_enc 4 0) []).
  match type of H with forall log, _ -> _ -> ?a = _ -> _ => destruct a as [log| |] eqn:E end; try (vm_compute in E; discriminate).
  specialize (H log). lapply H; [clear H; intro H|apply ex_layout; eexists; vm_compute; reflexivity].
  specialize (H ltac:(repeat constructor; vm_compute; reflexivity || discriminate) eq_refl).
  assert (X : match ogg_write Opus (ogg_data ex_hp ex_ap ([0] ++ bytes_of [pg 0 5 7 9 [21; 22; 23; 24; 25; 26]])) ex_tag with
    | Ok log => contains (content_of [pg 0 5 7 9 [21; 22; 23; 24; 25; 26]]) (apply_log (ogg_data ex_hp ex_ap ([0] ++ bytes_of [pg 0 5 7 9 [21; 22; 23; 24; 25; 26]])) log)
    | _ => true end = false) by (vm_compute; reflexivity).
  rewrite E in X. congruence.
Qed.
Print Assumptions C96_after_junk_refuted.
(** ... and so is all the audio if its first packet shares the page of the last header packet. *)
Definition ex_shared : list page := [pg 2 0 7 0 ex_head; crc_page (mkPage 0 0 960 7 1 [19; 3] 0 (ex_comments ++ [31; 32; 33]) 0)].
Theorem C96_shared_page_refuted : ~ (forall f t hp ap pk p0 c audio log,
  holds hp (p0 :: c :: audio :: pk) -> Forall page_ok ap -> header_count f = 2 -> ogg_write f (bytes_of hp ++ bytes_of ap) t = Ok log ->
  contains audio (apply_log (bytes_of hp ++ bytes_of ap) log) = true \/ contains (content_of ap) (apply_log (bytes_of hp ++ bytes_of ap) log) = true).
Proof.
  intro H. specialize (H Opus ex_tag ex_shared ex_ap [] ex_head ex_comments [31; 32; 33]).
  match type of H with forall log, _ -> _ -> _ -> ?a = _ -> _ => destruct a as [log| |] eqn:E end; try (vm_compute in E; discriminate).
  specialize (H log). lapply H; [clear H; intro H|split; [|split; vm_compute; reflexivity]; repeat constructor; vm_compute; reflexivity || discriminate].
  specialize (H ltac:(repeat constructor; vm_compute; reflexivity || discriminate) eq_refl eq_refl).
  assert (X : match ogg_write Opus (bytes_of ex_shared ++ bytes_of ex_ap) ex_tag with
    | Ok log => contains [31; 32; 33] (apply_log (bytes_of ex_shared ++ bytes_of ex_ap) log) || contains (content_of ex_ap) (apply_log (bytes_of ex_shared ++ bytes_of ex_ap) log)
    | _ => true end = false) by (vm_compute; reflexivity).
  rewrite E in X. apply orb_false_iff in X as [X1 X2]. destruct H; congruence.
Qed.
Print Assumptions C96_shared_page_refuted.
(** Pages of another logical stream lose their own numbering (RFC 3533 counts per stream). *)
Theorem C96_other_streams_refuted : ~ (forall f t hp ap p0 vb extra rest first p log,
  ogg_layout f hp ap [] p0 vb extra rest -> nth_error hp 0 = Some first -> In p ap -> pg_serial p <> pg_serial first ->
  ogg_write f (ogg_data hp ap []) t = Ok log -> contains (as_bytes p) (apply_log (ogg_data hp ap []) log) = true).
Proof.
  intro H. specialize (H Opus ex_tag ex_hp [pg 2 0 8 0 [1]] ex_head ($"abc") (le_enc 4 0) [] (pg 2 0 7 0 ex_head) (pg 2 0 8 0 [1])).
  match type of H with forall log, _ -> _ -> _ -> _ -> ?a = _ -> _ => destruct a as [log| |] eqn:E end; try (vm_compute in E; discriminate).
  specialize (H log). lapply H; [clear H; intro H|].
  2:{ destruct (ex_layout [] ltac:(eexists; vm_compute; reflexivity)). constructor; auto. repeat constructor; vm_compute; reflexivity || discriminate.
      apply Forall_forall. intros x I. assert (F : forallb (fun c => c <? 256) (bytes_of ex_hp ++ bytes_of [pg 2 0 8 0 [1]]) = true) by (vm_compute; reflexivity).
      rewrite forallb_forall in F. apply F in I. unfold byte_ok. lia. }
  specialize (H eq_refl (or_introl eq_refl) ltac:(discriminate) eq_refl).
  assert (X : match ogg_write Opus (ogg_data ex_hp [pg 2 0 8 0 [1]] []) ex_tag with
    | Ok log => contains (as_bytes (pg 2 0 8 0 [1])) (apply_log (ogg_data ex_hp [pg 2 0 8 0 [1]] []) log)
    | _ => true end = false) by (vm_compute; reflexivity).
  rewrite E in X. congruence.
Qed.
Print Assumptions C96_other_streams_refuted.
(** RFC 7845 section 5.2: binary data behind the comments, marked by an odd first byte, should be kept. *)
Theorem C96_opus_extra_refuted : ~ (forall t hp ap p0 vb items x rest log,
  ogg_layout Opus hp ap [] p0 vb (le_enc 4 (lenN items) ++ flat_map comment_bytes items ++ x) rest ->
  N.odd (hd 0 x) = true -> ogg_write Opus (ogg_data hp ap []) t = Ok log -> contains x (apply_log (ogg_data hp ap []) log) = true).
Proof.
  intro H. set (hp := [pg 2 0 7 0 ex_head; pg 0 0 7 1 (ex_comments ++ [1; 42; 43; 44; 45])]).
  specialize (H ex_tag hp ex_ap ex_head ($"abc") [] [1; 42; 43; 44; 45] []).
  match type of H with forall log, _ -> _ -> ?a = _ -> _ => destruct a as [log| |] eqn:E end; try (vm_compute in E; discriminate).
  specialize (H log). lapply H; [clear H; intro H|].
  2:{ constructor; try reflexivity. split; [|split; vm_compute; reflexivity]. repeat constructor; vm_compute; reflexivity || discriminate.
      constructor; [vm_compute; discriminate|constructor]. repeat constructor; vm_compute; reflexivity || discriminate.
      apply Forall_forall. intros x I. assert (F : forallb (fun c => c <? 256) (bytes_of hp ++ bytes_of ex_ap) = true) by (vm_compute; reflexivity).
      rewrite forallb_forall in F. apply F in I. unfold byte_ok. lia. eexists. vm_compute. reflexivity. }
  specialize (H eq_refl eq_refl).
  assert (X : match ogg_write Opus (ogg_data hp ex_ap []) ex_tag with
    | Ok log => contains [1; 42; 43; 44; 45] (apply_log (ogg_data hp ex_ap []) log)
    | _ => true end = false) by (vm_compute; reflexivity).
  rewrite E in X. congruence.
Qed.
Print Assumptions C96_opus_extra_refuted.

(** C97: the file is emptied before anything is written, so a crash can lose everything. *)
Theorem C97_crash : forall f data t log, ogg_write f data t = Ok log -> crash data log [].
Proof.
  intros f data t log H. assert (E : exists l, log = OpTrunc 0 :: l).
  { unfold ogg_write in H. repeat match type of H with
      | bind ?x _ = _ => destruct x as [?y| |]; cbn [bind] in H; try discriminate
      | (let '(_, _) := ?x in _) = _ => destruct x
      | match ?x with Ok _ => _ | Err _ => _ | Panic => _ end = _ => destruct x; try discriminate
      end. inversion H. eauto. }
  destruct E as [l ->]. assert (A : apply_log data [OpTrunc 0] = []) by exact (trunc_appends data []).
  rewrite <- A. now apply (crash_clean data (OpTrunc 0 :: l) [OpTrunc 0] l).
Qed.
Print Assumptions C97_crash.
Example C97_ex : exists log, ogg_write Opus (ogg_data ex_hp ex_ap []) ex_tag = Ok log /\ ogg_data ex_hp ex_ap [] <> [].
Proof. eexists. split; [vm_compute; reflexivity|vm_compute; discriminate]. Qed.

(** C98: a saved tag reads back, with the vendor of the file. *)
Lemma items_str : forall o t, vc_ok o t -> Forall (fun i => str_ok (fst i) /\ str_ok (snd i)) (vc_items t).
Proof.
  intros o t (_ & _ & _ & I & _). eapply Forall_impl; [|exact (vitems_plain _ _ _ I)]. intros [k v] (A & B & D & _). cbn [fst snd] in *. split; auto.
  eapply Forall_impl; [|exact B]. intros c N1. unfold name_char in N1. unfold scalar, scalarb. lia.
Qed.
Theorem C98_read_back : forall f o t hp ap tail x vb extra rest new,
  ogg_layout f hp ap tail (head_sig f ++ x) vb extra rest -> vc_ok o (saved_tag vb t) ->
  create_metadata_packet (saved_tag vb t) (comment_sig f) (has_framing f) = Ok new ->
  lenN ap + lenN (head_sig f ++ x) + lenN new + lenN (concat rest) + 3 <= 2 ^ 32 ->
  exists log, ogg_write f (ogg_data hp ap tail) t = Ok log /\
    ogg_file_read f o true false (apply_log (ogg_data hp ap tail) log) =
      Ok (if vo_cover o then saved_tag vb t else mkVc (kept_vendor vb) (vc_items t) [], PNone).
Proof.
  intros f o t hp ap tail x vb extra rest new L VC CP B. pose proof (items_str _ _ VC) as I. cbn [saved_tag vc_items] in I.
  destruct (save_ok f t hp ap tail _ vb extra rest new L I CP B) as (first & np & log & A1 & A2 & A3 & A4 & A5 & (HN & _) & A7 & A8).
  exists log. split; auto. rewrite A5. set (more := bytes_of (renumber (lenN np) ap)).
  destruct (first_header np _ more HN ltac:(discriminate)) as (p & np' & E & PO & HR).
  destruct (C78_packet_roundtrip_partial o (saved_tag vb t) (comment_sig f) (has_framing f) VC) as (b & CP' & RB).
  assert (new = comment_sig f ++ b) by congruence. subst new. specialize (RB []). rewrite app_nil_r in RB.
  unfold ogg_file_read, ogg_read_from. rewrite HR. cbn [opg bind].
  replace (Z.of_N (header_count f)) with (Z.of_N (lenN ((head_sig f ++ x) :: (comment_sig f ++ b) :: rest))) by (rewrite !lenN_cons; destruct L; lia).
  rewrite (read_count_exact np _ more HN) by discriminate. cbn [opg bind].
  destruct (pk_whole ((head_sig f ++ x) :: (comment_sig f ++ b) :: rest)) as [WF AB].
  change 0 with (N.of_nat 0) at 1. rewrite pk_some_nth by auto. rewrite AB. cbn [nth_error bind]. rewrite verify_app. cbn [bind negb].
  change 1 with (N.of_nat 1) at 1. rewrite pk_some_nth by auto. rewrite AB. cbn [nth_error bind]. rewrite verify_app. cbn [bind].
  rewrite dropN_app by auto. rewrite RB. 2:{ rewrite lenN_app in B. change (lenN (@nil N)) with 0. change (2 ^ 32) with 4294967296 in B. change (2 ^ 34) with 17179869184. rewrite (lenN_app _ (comment_sig f)) in B. lia. }
  cbn [bind]. destruct (vo_cover o); reflexivity.
Qed.
Print Assumptions C98_read_back.
Example C98_ex : match ogg_write Opus (ogg_data ex_hp ex_ap [1]) ex_tag with
  | Ok log => ogg_file_read Opus (mkVo true true Strict) true false (apply_log (ogg_data ex_hp ex_ap [1]) log) = Ok (mkVc ($"abc") [($"TITLE", $"t")] [], PNone)
  | _ => False end.
Proof. vm_compute. auto. Qed.
(** So the vendor of the tag given to save is never stored. *)
Theorem C98_vendor_refuted : ~ (forall f o t hp ap p0 vb extra rest log t' pr,
  ogg_layout f hp ap [] p0 vb extra rest -> ogg_write f (ogg_data hp ap []) t = Ok log ->
  ogg_file_read f o true false (apply_log (ogg_data hp ap []) log) = Ok (t', pr) -> vc_vendor t' = vc_vendor t).
Proof.
  intro H. specialize (H Opus (mkVo true true Strict) ex_tag ex_hp ex_ap ex_head ($"abc") (le_enc 4 0) []).
  destruct (ogg_write Opus (ogg_data ex_hp ex_ap []) ex_tag) as [log| |] eqn:E; try (vm_compute in E; discriminate).
  specialize (H log (mkVc ($"abc") [($"TITLE", $"t")] []) PNone). lapply H; [clear H; intro H|apply ex_layout; eexists; vm_compute; reflexivity]. specialize (H eq_refl).
  assert (X : match ogg_write Opus (ogg_data ex_hp ex_ap []) ex_tag with Ok log => ogg_file_read Opus (mkVo true true Strict) true false (apply_log (ogg_data ex_hp ex_ap []) log) | _ => Panic end
    = Ok (mkVc ($"abc") [($"TITLE", $"t")] [], PNone)) by (vm_compute; reflexivity).
  rewrite E in X. specialize (H X). vm_compute in H. discriminate.
Qed.
Print Assumptions C98_vendor_refuted.

(** C99: saving the same tag again changes nothing. *)
Theorem C99_idempotent : forall f t hp ap tail p0 vb extra rest new,
  ogg_layout f hp ap tail p0 vb extra rest ->
  Forall (fun i => str_ok (fst i) /\ str_ok (snd i)) (vc_items t) ->
  create_metadata_packet (saved_tag vb t) (comment_sig f) (has_framing f) = Ok new ->
  lenN ap + lenN p0 + lenN new + lenN (concat rest) + 3 <= 2 ^ 32 ->
  exists log log2, ogg_write f (ogg_data hp ap tail) t = Ok log /\
    ogg_write f (apply_log (ogg_data hp ap tail) log) t = Ok log2 /\
    apply_log (apply_log (ogg_data hp ap tail) log) log2 = apply_log (ogg_data hp ap tail) log.
Proof.
  intros f t hp ap tail p0 vb extra rest new L I CP B.
  destruct (save_ok f t hp ap tail p0 vb extra rest new L I CP B) as (first & np & log & A1 & A2 & A3 & A4 & A5 & (HN & HS & _) & A7 & A8).
  set (ap' := renumber (lenN np) ap) in *. destruct L as [H C F V P BB T]. apply bytes_ok_app in BB as [BB1 BB2].
  destruct (renumber_ok ap (lenN np) P (bytes_pages _ P BB2) A8) as [PO PB]. fold ap' in PO, PB.
  assert (BV : bytes_ok vb).
  { destruct H as (H1 & H2 & H3). apply (bytes_pages _ H1) in BB1. apply content_bytes in BB1. rewrite H3 in BB1. cbn [concat] in BB1.
    apply bytes_ok_app in BB1 as [_ X]. apply bytes_ok_app in X as [X _]. apply bytes_ok_app in X as [_ X]. apply bytes_ok_app in X as [_ X]. apply bytes_ok_app in X as [X _]. auto. }
  set (vb2 := utf8_enc (kept_vendor vb)).
  assert (LV : lenN vb2 < 2 ^ 32). { unfold vb2, kept_vendor. destruct (utf8_dec vb) eqn:E. apply utf8_dec_spec in E as [_ E]; auto. now rewrite E. reflexivity. }
  assert (KV : kept_vendor vb2 = kept_vendor vb). { unfold vb2. unfold kept_vendor at 1. rewrite utf8_dec_enc; auto. now apply utf8_kept. }
  assert (NX : exists extra2, new = comment_sig f ++ le_enc 4 (lenN vb2) ++ vb2 ++ extra2).
  { unfold create_metadata_packet in CP. destruct (create_comments _) as [u| |]; cbn [bind] in CP; try discriminate. destruct (create_pictures _) as [w| |]; cbn [bind] in CP; try discriminate.
    destruct (_ <? _); [discriminate|]. unfold vendor_bytes in CP. cbn [saved_tag vc_vendor] in CP. fold vb2 in CP. rewrite N.mod_small in CP by auto.
    eexists. rewrite <- app_assoc in CP. symmetry. injection CP as CP. exact CP. }
  destruct NX as [extra2 NX].
  assert (L2 : ogg_layout f np ap' [] p0 vb2 extra2 rest).
  { constructor; auto. now rewrite <- NX.
    apply bytes_ok_app. split; [|]. 
    - clear -A7 HN. destruct HN as (O & _). induction O; cbn [bytes_of flat_map]. constructor. inversion A7 as [|? ? [X1 X2] X3]; subst. apply bytes_ok_app. split; auto. apply as_bytes_ok; auto. now destruct H.
    - clear -PO PB. induction PO; cbn [bytes_of flat_map]. constructor. inversion PB as [|? ? [X1 X2] X3]; subst. apply bytes_ok_app. split; auto. apply as_bytes_ok; auto. now destruct H.
    - eexists. reflexivity. }
  assert (CP2 : create_metadata_packet (saved_tag vb2 t) (comment_sig f) (has_framing f) = Ok new) by (unfold saved_tag; rewrite KV; exact CP).
  assert (B2 : lenN ap' + lenN p0 + lenN new + lenN (concat rest) + 3 <= 2 ^ 32) by (unfold ap'; rewrite renumber_len; auto).
  destruct (save_ok f t np ap' [] p0 vb2 extra2 rest new L2 I CP2 B2) as (first2 & np2 & log2 & D1 & D2 & D3 & D4 & D5 & _).
  assert (SE : pg_serial first2 = pg_serial first). { apply nth_error_In in D1. rewrite Forall_forall in HS. apply HS in D1. tauto. }
  rewrite SE, A2 in D2. exists log, log2. split; auto. rewrite A5. unfold ogg_data in D3, D5. rewrite app_nil_r in D3, D5. split; auto.
  rewrite D5. injection D2 as D2 D2'. rewrite <- D2, <- D2'. f_equal. f_equal. apply renumber_twice.
Qed.
Print Assumptions C99_idempotent.
Example C99_ex : match ogg_write Opus (ogg_data ex_hp ex_ap [1]) ex_tag with
  | Ok log => let d := apply_log (ogg_data ex_hp ex_ap [1]) log in match ogg_write Opus d ex_tag with Ok log2 => apply_log d log2 = d | _ => False end
  | _ => False end.
Proof. vm_compute. auto. Qed.
