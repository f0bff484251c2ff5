(** Property theorems for APE files: saving and reading (C68-C72). *)
From Verif Require Import BaseLemmas StrLemmas TextProof Id3v1Thm PictureProof ItemKeyThm TagThm Id3v2HeaderThm ApeModel ApeProof ApeProof2 ApeThm.
From Verif Require Import TagModel.

(** ** C69: saving. [file_end data v1]: [v1] is the ID3v1 tag at the end of [data] (or empty). *)
Definition file_end (data v1 : bytes) : Prop :=
  (v1 = [] /\ (128 <= lenN data -> takeN 3 (dropN (lenN data - 128) data) <> $"TAG")) \/ (lenN v1 = 128 /\ takeN 3 v1 = $"TAG").
Lemma find_end : forall pre v1, file_end (pre ++ v1) v1 -> exists f, find_id3v1 (pre ++ v1) = (lenN pre, f).
Proof.
  intros pre v1 [[-> H]|[L T]]; unfold find_id3v1.
  - rewrite app_nil_r in *. destruct (N.ltb_spec (lenN pre) 128). eauto. destruct (list_eqb _ TAG) eqn:E; eauto. apply list_eqb_eq in E. destruct H; auto.
  - rewrite lenN_app, L. destruct (N.ltb_spec (lenN pre + 128) 128). { assert (X : lenN pre = 0) by lia. lia. }
    replace (lenN pre + 128 - 128) with (lenN pre) by lia. rewrite dropN_app by auto. rewrite T. change (list_eqb ($"TAG") TAG) with true. eauto.
Qed.
(** The tag that is there: none, or one written by [dump_to] (below 2^32 bytes), either of which may have other content than the new one. *)
Definition old_tag (audio old : bytes) : Prop :=
  (old = [] /\ takeN 8 (dropN (lenN audio - 32) audio) <> $"APETAGEX") \/
  (lenN old < 2 ^ 32 /\ exists t, Forall item_ok (at_items t) /\ NoDup (map (fun i => lower (ai_key i)) (at_items t)) /\ at_items t <> [] /\ ape_dump t = Ok old).

Lemma splice_app : forall a b c new n m, n = lenN a -> m = lenN (a ++ b) -> splice n m new (a ++ b ++ c) = Ok (a ++ new ++ c).
Proof.
  intros a b c new n m -> ->. unfold splice. rewrite !lenN_app. destruct (N.ltb_spec (lenN a + lenN b) (lenN a)); [lia|].
  destruct (N.ltb_spec (lenN a + (lenN b + lenN c)) (lenN a + lenN b)); [lia|]. cbn [orb]. rewrite takeN_app by auto. do 3 f_equal.
  rewrite app_assoc. apply dropN_app. now rewrite lenN_app.
Qed.
Lemma log_apply : forall data out, apply_log data [OpTrunc 0; OpWrite 0 out] = out.
Proof.
  intros. unfold apply_log. cbn [fold_left apply_op]. assert (E : set_len 0 data = []).
  { unfold set_len. rewrite takeN_0. replace (0 - lenN data) with 0 by lia. reflexivity. }
  rewrite E. unfold write_at. rewrite takeN_0. change (lenN (@nil N)) with 0. change (N.to_nat (0 - 0)) with O. cbn [repeat app].
  rewrite dropN_all. apply app_nil_r. change (lenN (@nil N)) with 0. lia.
Qed.

Theorem C69_save_partial : forall audio old v1 ro items new cover h c p,
  let data := audio ++ old ++ v1 in
  file_end data v1 -> old_tag audio old -> 32 <= lenN (audio ++ old) ->
  (* an ID3v2 tag may be in front; the second 8 bytes after it are not an APE preamble *)
  find_id3v2 data 0 false None = Ok (h, c, p) -> p + 16 <= lenN data -> takeN 8 (dropN (p + 8) data) <> $"APETAGEX" ->
  create_ape_tag ro items = Ok new ->
  exists log, ape_write data cover true ro items = Ok log /\ apply_log data log = audio ++ new ++ v1.
Proof.
  intros audio old v1 ro items new cover h c p data FE OT L32 FV Lp NP CR.
  unfold ape_write, find_existing. rewrite FV.
  assert (R1 : rd_exact 8 (rd_at data p) = Ok (takeN 8 (dropN p data), (p + 8, dropN (p + 8) data))).
  { unfold rd_exact, rd_at. cbn [fst snd]. unfold read_exact. rewrite lenN_dropN. destruct (N.leb_spec 8 (lenN data - p)); [|lia]. cbn [or_io bind]. now rewrite dropN_dropN. }
  rewrite R1. cbn [bind fst snd].
  assert (R2 : exists r, read_ape_tag data false cover true (p + 8, dropN (p + 8) data) = Ok (None, None, r)).
  { unfold read_ape_tag, rd_exact. cbn [fst snd]. unfold read_exact. rewrite lenN_dropN. destruct (N.leb_spec 8 (lenN data - (p + 8))); [|lia]. cbn [or_io bind].
    destruct (list_eqb _ PREAMBLE) eqn:E; [|eauto]. apply list_eqb_eq in E. contradiction. }
  destruct R2 as (r & R2). rewrite R2. cbn [bind].
  destruct (find_end (audio ++ old) v1) as (fd & F1). { rewrite <- app_assoc. exact FE. } rewrite <- app_assoc in F1. fold data in F1. rewrite F1.
  assert (LD : lenN data = lenN (audio ++ old) + lenN v1) by (unfold data; rewrite !lenN_app; lia).
  pose proof (C35_never_recognised data (lenN (audio ++ old)) ltac:(lia)) as LY.
  destruct (find_lyrics3v2 data (lenN (audio ++ old))) as [[[lf ls] pos]| |]; [|lia|contradiction]. destruct LY as (_ & _ & ->).
  unfold seek_back. destruct (N.ltb_spec (lenN (audio ++ old)) 32); [lia|].
  destruct OT as [[-> NT]|(Lo & t & IO & ND & Ne & D)].
  - rewrite app_nil_r in *.
    assert (R3 : exists r, read_ape_tag data true cover true (rd_at data (lenN audio - 32)) = Ok (None, None, r)).
    { unfold read_ape_tag, rd_exact, rd_at. cbn [fst snd]. unfold read_exact. rewrite lenN_dropN. destruct (N.leb_spec 8 (lenN data - (lenN audio - 32))); [|lia]. cbn [or_io bind].
      destruct (list_eqb _ PREAMBLE) eqn:E; [|eauto]. apply list_eqb_eq in E. destruct NT. unfold data in E. rewrite dropN_app_le in E by lia. rewrite takeN_app_le in E by (rewrite lenN_dropN; lia). exact E. }
    destruct R3 as (r3 & R3). rewrite R3. cbn [bind]. rewrite CR. cbn [bind].
    unfold data at 1. rewrite (splice_app audio [] v1) by (rewrite ?app_nil_r; auto). cbn [bind]. eexists. split. reflexivity. apply log_apply.
  - destruct (read_back t old audio v1 cover IO ND Ne D) as [_ RB]. cbv zeta in RB. fold data in RB. rewrite RB. cbn [bind].
    replace (N.min U32_MAX (lenN old)) with (lenN old) by (unfold U32_MAX; lia).
    destruct (N.ltb_spec (lenN (audio ++ old)) (lenN old)). { rewrite lenN_app in *. lia. } cbn [bind]. rewrite CR. cbn [bind].
    unfold data at 1. rewrite (splice_app audio old v1); auto. 2:{ rewrite lenN_app. lia. } cbn [bind]. eexists. split. reflexivity. apply log_apply.
Qed.
Print Assumptions C69_save_partial.
Definition one (k v : str) : list ape_item := [ape_text k v].
Definition audio_ex : bytes := $"MAC " ++ repeat 7 (N.to_nat 60).
Definition v1_ex : bytes := $"TAG" ++ repeat 0 (N.to_nat 125).
Definition dumped (items : list ape_item) : bytes := match create_ape_tag false items with Ok b => b | _ => [] end.
Definition saved (data : bytes) (cover tags : bool) (items : list ape_item) : option bytes :=
  match ape_write data cover tags false items with Ok log => Some (apply_log data log) | _ => None end.
Example C69_ex : saved (audio_ex ++ dumped (one ($"Title") ($"Old")) ++ v1_ex) true true (one ($"Artist") ($"New")) = Some (audio_ex ++ dumped (one ($"Artist") ($"New")) ++ v1_ex) /\
  saved (audio_ex ++ dumped (one ($"Title") ($"Old")) ++ v1_ex) true true [] = Some (audio_ex ++ v1_ex) /\
  saved audio_ex true true (one ($"Artist") ($"New")) = Some (audio_ex ++ dumped (one ($"Artist") ($"New"))).
Proof. vm_compute. auto. Qed.

(** Finding: the header flag (bit 31) is ignored; a version 2 tag without a header makes saving delete 32 bytes of audio. *)
Definition headerless (items : list ape_item) : bytes :=
  let body := flat_map item_bytes items in body ++ frame_bytes (lenN body + 32) (lenN items) 0.
Theorem C69_no_header_refuted : ~ (forall audio items new, lenN audio >= 64 -> takeN 3 audio <> $"ID3" -> Forall item_ok items ->
  saved (audio ++ headerless items) true true new = Some (audio ++ dumped new)).
Proof.
  intro H. specialize (H audio_ex (one ($"Title") ($"Old")) [] ltac:(vm_compute; discriminate) ltac:(vm_compute; discriminate)).
  assert (F : Forall item_ok (one ($"Title") ($"Old"))) by (constructor; [|constructor]; split; [eexists; vm_compute; reflexivity|split; [repeat constructor|cbn; lia]]).
  specialize (H F). vm_compute in H. discriminate.
Qed.
Print Assumptions C69_no_header_refuted.
Example C69_no_header_ex : saved (audio_ex ++ headerless (one ($"Title") ($"Old"))) true true [] = Some (takeN 32 audio_ex).
Proof. vm_compute. reflexivity. Qed.
(** Finding: when the parse options used for saving do not read tags, the old tag stays and a second one is appended. *)
Theorem C69_unread_tag_refuted : exists old new, let data := audio_ex ++ dumped old in
  saved data true false new = Some (data ++ dumped new) /\ saved data true true new = Some (audio_ex ++ dumped new) /\ old <> [] /\ new <> [].
Proof. exists (one ($"Title") ($"Old")), (one ($"Title") ($"New")). cbv zeta. repeat split; try discriminate; vm_compute; reflexivity. Qed.
Print Assumptions C69_unread_tag_refuted.
(** Finding: only the 8 bytes after the first 8 are tried for a tag at the start. When the whole tag starts there it is found twice and the
    new tag is cut, or the save panics. *)
Theorem C69_overlap_refuted : exists old new1 new2, let data := repeat 7 8 ++ dumped old in
  ape_write data true true false new1 = Panic /\ saved data true true new2 <> Some (repeat 7 8 ++ dumped new2) /\ saved data true true new2 <> None.
Proof.
  exists (one ($"Title") ($"Old title")), [], (one ($"Title") ($"A new title")). cbv zeta. repeat split; vm_compute; (reflexivity || discriminate).
Qed.
Print Assumptions C69_overlap_refuted.

(** ** C68: read-only items of the old tag are not kept; the writer has no other input than these, in particular the
    [respect_read_only] option only selects items that are then dropped. *)
Theorem C68_respect_read_only_refuted : ~ (forall audio old new i, lenN audio >= 64 -> takeN 3 audio <> $"ID3" -> Forall item_ok old -> In i old -> ai_ro i = true ->
  exists out new', saved (audio ++ dumped old) true true new = Some out /\ out = audio ++ dumped new' /\ In i new').
Proof.
  intro H. pose (i := mkApe true ($"Title") (VText ($"Old"))).
  assert (F : Forall item_ok [i]) by (constructor; [|constructor]; split; [eexists; vm_compute; reflexivity|split; [repeat constructor|cbn; lia]]).
  destruct (H audio_ex [i] (one ($"Artist") ($"New")) i ltac:(vm_compute; discriminate) ltac:(vm_compute; discriminate) F (or_introl eq_refl) eq_refl) as (out & new' & S & O & I).
  assert (X : saved (audio_ex ++ dumped [i]) true true (one ($"Artist") ($"New")) = Some (audio_ex ++ dumped (one ($"Artist") ($"New")))) by (vm_compute; reflexivity).
  rewrite X in S. assert (H1 : audio_ex ++ dumped (one ($"Artist") ($"New")) = audio_ex ++ dumped new') by congruence. apply app_inv_head in H1. apply (f_equal lenN) in H1.
  change (lenN (dumped (one ($"Artist") ($"New")))) with 82 in H1. destruct new' as [|j [|k l]]; [contradiction| |].
  - destruct I as [->|[]]. vm_compute in H1. discriminate.
  - unfold dumped, create_ape_tag in H1. destruct (N.ltb_spec U32_MAX (lenN (j :: k :: l))). { discriminate. }
    destruct (N.ltb_spec U32_MAX (lenN (flat_map item_bytes (j :: k :: l)) + 32)). discriminate.
    rewrite !lenN_app, !frame_len in H1. cbn [flat_map] in H1. rewrite !lenN_app in H1.
    assert (IL : forall x, 9 <= lenN (item_bytes x)). { intro x. unfold item_bytes. cbv zeta. rewrite !lenN_app, !le_enc_len. change (lenN [0]) with 1. lia. }
    assert (LI : lenN (item_bytes i) = 17) by (vm_compute; reflexivity).
    assert (17 + 9 <= lenN (item_bytes j) + (lenN (item_bytes k) + lenN (flat_map item_bytes l))).
    { destruct I as [->|[->|I]]. rewrite LI. pose proof (IL k). lia. rewrite LI. pose proof (IL j). lia.
      pose proof (IL j). pose proof (IL k). assert (17 <= lenN (flat_map item_bytes l)); [|lia].
      clear - I LI. induction l as [|a l IH]; [contradiction|]. cbn [flat_map]. rewrite lenN_app. destruct I as [->|I]. rewrite LI. lia. specialize (IH I). lia. }
    lia.
Qed.
Print Assumptions C68_respect_read_only_refuted.
(** What is written does not depend on the items of the old tag at all. *)
Theorem C68_old_items_irrelevant : forall audio old1 old2 v1 ro items cover h c p,
  let data1 := audio ++ old1 ++ v1 in let data2 := audio ++ old2 ++ v1 in
  file_end data1 v1 -> file_end data2 v1 -> old_tag audio old1 -> old_tag audio old2 -> 32 <= lenN audio ->
  (forall data, data = data1 \/ data = data2 -> find_id3v2 data 0 false None = Ok (h, c, p) /\ p + 16 <= lenN data /\ takeN 8 (dropN (p + 8) data) <> $"APETAGEX") ->
  match create_ape_tag ro items with Ok _ => True | _ => False end ->
  exists log1 log2, ape_write data1 cover true ro items = Ok log1 /\ ape_write data2 cover true ro items = Ok log2 /\ apply_log data1 log1 = apply_log data2 log2.
Proof.
  intros audio old1 old2 v1 ro items cover h c p data1 data2 F1 F2 O1 O2 L P CR. destruct (create_ape_tag ro items) as [new| |] eqn:E; try contradiction.
  destruct (P _ (or_introl eq_refl)) as (A1 & B1 & C1). destruct (P _ (or_intror eq_refl)) as (A2 & B2 & C2).
  destruct (C69_save_partial audio old1 v1 ro items new cover h c p F1 O1 ltac:(rewrite lenN_app; lia) A1 B1 C1 E) as (l1 & W1 & R1).
  destruct (C69_save_partial audio old2 v1 ro items new cover h c p F2 O2 ltac:(rewrite lenN_app; lia) A2 B2 C2 E) as (l2 & W2 & R2).
  exists l1, l2. repeat split; auto. unfold data1, data2. congruence.
Qed.
Print Assumptions C68_old_items_irrelevant.

(** ** C70 *)
Lemma rd_exact_np : forall n r, rd_exact n r <> Panic.
Proof. intros. unfold rd_exact. destruct (read_exact n (snd r)) as [[b x]|]; cbn [or_io bind]; discriminate. Qed.
Lemma rd_le4_np : forall r, rd_le4 r <> Panic.
Proof. intros. unfold rd_le4. destruct (read_le 4 (snd r)) as [[b x]|]; cbn [or_io bind]; discriminate. Qed.
Lemma bind_np : forall E A B (a : res E A) (f : A -> res E B), a <> Panic -> (forall x, a = Ok x -> f x <> Panic) -> bind a f <> Panic.
Proof. intros. destruct a; cbn [bind]; auto; congruence. Qed.
Lemma dec_text_np : forall b, dec_text b <> Panic.
Proof. intros. unfold dec_text. destruct (utf8_decode b); discriminate. Qed.
Lemma item_new_np : forall k v, ape_item_new k v <> Panic.
Proof. intros. unfold ape_item_new. destruct (existsb (fun k0 => eq_ignore_case k0 k) INVALID_KEYS); [discriminate|]. cbv zeta. destruct (negb _); [discriminate|]. destruct (existsb _ k); discriminate. Qed.
Lemma parse_item_np : forall k f s r, parse_item k f s r <> Panic.
Proof.
  intros. unfold parse_item. cbv zeta. apply bind_np. apply rd_exact_np. intros [v r1] _. apply bind_np.
  - destruct (_ =? 0). apply bind_np. apply dec_text_np. discriminate. destruct (_ =? 1). discriminate. destruct (_ =? 2); [|discriminate]. apply bind_np. apply dec_text_np. discriminate.
  - intros pv _. apply bind_np. apply item_new_np. discriminate.
Qed.
Lemma read_items_np : forall fuel count remaining cover t r, read_items fuel count remaining cover t r <> Panic.
Proof.
  induction fuel; intros; cbn [read_items]; [discriminate|]. destruct (count =? 0); [discriminate|]. destruct (remaining <? 11); [discriminate|].
  apply bind_np. apply rd_le4_np. intros [size r1] _. destruct (remaining <? size); [discriminate|]. apply bind_np. apply rd_le4_np. intros [fl r2] _.
  apply bind_np. { unfold rd_key. destruct (key_bytes (snd r2)) as [[k x]|]; cbn [or_io bind]; discriminate. } intros [kb r3] _.
  apply bind_np. apply dec_text_np. intros key _. destruct (_ && _). apply IHfuel. apply bind_np. apply parse_item_np. intros [i r4] _. apply IHfuel.
Qed.
Lemma read_header_np : forall data f r, read_ape_header data f r <> Panic.
Proof.
  intros. unfold read_ape_header. apply bind_np. apply rd_le4_np. intros [v r1] _. apply bind_np. apply rd_le4_np. intros [s r2] _. destruct (s <? 32); [discriminate|].
  apply bind_np. apply rd_le4_np. intros [c r3] _. apply bind_np. destruct f; [|discriminate]. destruct (seek_back _ _); discriminate. intros x _. cbv zeta. destruct (_ <? _); discriminate.
Qed.
Theorem C70_read_tag_total : forall data footer cover tags r, read_ape_tag data footer cover tags r <> Panic.
Proof.
  intros. unfold read_ape_tag. apply bind_np. apply rd_exact_np. intros [p r1] _. destruct (list_eqb p PREAMBLE); [|discriminate].
  apply bind_np. apply read_header_np. intros [[s c] r2] _. destruct tags; [|discriminate]. apply bind_np; [|intros [t r3] _; discriminate].
  unfold read_with_header. apply bind_np. apply read_items_np. intros [t r3] _. discriminate.
Qed.
Print Assumptions C70_read_tag_total.
(** Finding: the size of the footer is checked against the whole file, then subtracted from the length without the ID3v2 tag. *)
Definition v2_ex : bytes := $"ID3" ++ [4; 0; 0; 0; 0; 0; 10] ++ repeat 0 10.
Definition overflow_ex : bytes := v2_ex ++ $"MAC " ++ repeat 7 (N.to_nat 40) ++ PREAMBLE ++ le_enc 4 2000 ++ le_enc 4 64 ++ le_enc 4 0 ++ repeat 0 12.
Theorem C70_read_file_refuted : ape_read_from (fun _ _ => true) overflow_ex true true false = Panic.
Proof. vm_compute. reflexivity. Qed.
Print Assumptions C70_read_file_refuted.
Example C70_ex : match ape_read_from (fun _ _ => true) (audio_ex ++ dumped (one ($"Title") ($"Old")) ++ v1_ex) true true false with
  | Ok f => af_ape f = Some (mkApeTag false (one ($"Title") ($"Old"))) /\ af_stream_len f = 64 /\ af_mac f = 4 | _ => False end.
Proof. vm_compute. auto. Qed.

(** ** C71 *)
Theorem C71_complete : forall data cover tags ro items log, ape_write data cover tags ro items = Ok log -> exists out, log = [OpTrunc 0; OpWrite 0 out] /\ apply_log data log = out.
Proof.
  intros. unfold ape_write in H. destruct (find_existing data cover tags) as [[[hd ft] pos]| |]; try discriminate. cbn [bind] in H.
  destruct (create_ape_tag ro items); try discriminate. cbn [bind] in H. destruct (match ft with Some _ => _ | None => _ end); try discriminate. cbn [bind] in H.
  destruct (match hd with Some _ => _ | None => _ end); try discriminate. cbn [bind] in H. inv H. eexists. split. reflexivity. apply log_apply.
Qed.
Print Assumptions C71_complete.
Theorem C71_crash_refuted : forall data cover tags ro items log, ape_write data cover tags ro items = Ok log -> crash data log [].
Proof.
  intros. destruct (C71_complete _ _ _ _ _ _ H) as (out & -> & _).
  replace (@nil N) with (apply_log data [OpTrunc 0]). apply (crash_clean data [OpTrunc 0; OpWrite 0 out] [OpTrunc 0] [OpWrite 0 out]). reflexivity.
  unfold apply_log. cbn [fold_left apply_op]. unfold set_len. rewrite takeN_0. replace (0 - lenN data) with 0 by lia. reflexivity.
Qed.
Print Assumptions C71_crash_refuted.
Example C71_ex : exists log, ape_write audio_ex true true false (one ($"Title") ($"New")) = Ok log /\ crash audio_ex log [].
Proof. eexists. split. vm_compute. reflexivity. eapply C71_crash_refuted with (cover := true) (tags := true) (ro := false) (items := one ($"Title") ($"New")). vm_compute. reflexivity. Qed.

(** ** C72: a file whose APE tag is at the start. *)
Lemma apet_never : forall fuel data cover tags r n, exists e, apet_rounds fuel data cover tags r n = inl e.
Proof.
  induction fuel; intros; cbn [apet_rounds]. eauto. pose proof (rd_exact_np 4 r). destruct (rd_exact 4 r) as [[x r1]| |]; try contradiction; eauto.
  destruct (negb _); eauto. pose proof (read_header_np data false r1). destruct (read_ape_header data false r1) as [[[s c] r2]| |]; try contradiction; eauto.
  destruct (n <? s); eauto. destruct tags; eauto.
  destruct (read_with_header s c cover r2) as [[t r3]| |] eqn:E; eauto. exfalso. revert E. unfold read_with_header. apply bind_np. apply read_items_np. intros [? ?] _. discriminate.
Qed.
Theorem C72_leading_tag_unreadable : forall ok data cover tags strict h c p, find_id3v2 data 0 tags None = Ok (h, c, p) ->
  takeN 4 (dropN p data) = $"APET" -> match ape_read_from ok data cover tags strict with Ok _ => False | _ => True end.
Proof.
  intros ok data cover tags strict h c p F T. destruct (ape_read_from ok data cover tags strict) as [f| |] eqn:E; auto. unfold ape_read_from in E. rewrite F in E.
  match type of E with bind ?a _ = _ => destruct a as [n| |]; try discriminate end. cbn [bind] in E.
  match type of E with bind ?a _ = _ => destruct a as [u| |]; try discriminate end. cbn [bind] in E.
  assert (R : match read_mac data cover tags (rd_at data p) n with Ok _ => False | _ => True end).
  { unfold read_mac, rd_exact, rd_at. cbn [fst snd]. unfold read_exact. rewrite T. destruct (4 <=? lenN (dropN p data)); cbn [or_io bind]; auto.
    change (list_eqb ($"APET") ($"MAC ")) with false. change (list_eqb ($"APET") ($"APET")) with true. cbn iota.
    destruct (apet_never (S (length data)) data cover tags (p + 4, dropN 4 (dropN p data)) n) as (e & ->). exact I. }
  destruct (read_mac data cover tags (rd_at data p) n) as [[a b]| |]; try contradiction; discriminate.
Qed.
Print Assumptions C72_leading_tag_unreadable.
Theorem C72_leading_tag_refuted : ~ (forall t b audio, ape_dump t = Ok b -> Forall item_ok (at_items t) -> at_items t <> [] -> takeN 4 audio = $"MAC " -> lenN audio >= 64 ->
  exists f, ape_read_from (fun _ _ => true) (b ++ audio) true true false = Ok f).
Proof.
  intro H. set (t := mkApeTag false (one ($"Title") ($"Old"))) in *. set (b := match ape_dump t with Ok b => b | _ => [] end). specialize (H t b audio_ex).
  assert (D : ape_dump t = Ok b) by (vm_compute; reflexivity).
  assert (O : Forall item_ok (at_items t)) by (constructor; [|constructor]; split; [eexists; vm_compute; reflexivity|split; [repeat constructor|cbn; lia]]).
  assert (F : find_id3v2 (b ++ audio_ex) 0 true None = Ok (None, None, 0)) by (vm_compute; reflexivity).
  assert (T : takeN 4 (dropN 0 (b ++ audio_ex)) = $"APET") by (vm_compute; reflexivity).
  destruct (H D O) as (f & E). { discriminate. } { vm_compute. reflexivity. } { vm_compute. discriminate. }
  pose proof (C72_leading_tag_unreadable (fun _ _ => true) _ true true false _ _ _ F T) as U. rewrite E in U. exact U.
Qed.
Print Assumptions C72_leading_tag_refuted.
(** Saving does not find a leading tag either: it stays and the new one is added at the end. *)
Theorem C72_leading_tag_saved_refuted : exists old new, let data := dumped old ++ audio_ex in
  old <> [] /\ saved data true true new = Some (data ++ dumped new).
Proof. exists (one ($"Title") ($"Old")), (one ($"Title") ($"New")). cbv zeta. split. discriminate. vm_compute. reflexivity. Qed.
Print Assumptions C72_leading_tag_saved_refuted.
Example C72_ex : ape_read_from (fun _ _ => true) (dumped (one ($"Title") ($"Old")) ++ audio_ex) true true false = Err AFake.
Proof. vm_compute. reflexivity. Qed.
