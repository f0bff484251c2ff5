(** Saving an ID3v2 tag to an MPEG or AAC file. *)
From Verif Require Import BaseLemmas SynchProof Id3v2HeaderProof FrameProof2 FileModel.
From Verif Require Export FrameSpec FrameWriteModel FrameReadModel.
From Verif Require Import Id3v2HeaderThm FrameThm.

Lemma two_ops : forall data buf, apply_log data [OpTrunc 0; OpWrite 0 buf] = buf.
Proof.
  intros. unfold apply_log. cbn [fold_left apply_op]. unfold set_len, write_at. rewrite !takeN_0. change (0 - lenN data) with 0. change (repeat 0 (N.to_nat 0)) with (@nil N).
  cbn [app]. rewrite dropN_all by (rewrite lenN_nil; lia). change (0 - lenN []) with 0. cbn [N.to_nat repeat app]. apply app_nil_r.
Qed.
(** The old tag (after at most [junk] bytes that are not audio) is replaced by the new one; what follows it is kept. *)
Theorem C148_replaced : forall w window f l junk major minor flags n body audio log,
  n < 2 ^ 32 -> (major = 2 \/ major = 3 \/ major = 4) -> flag flags 0x40 = false ->
  lenN body = unsynch32 n + (if negb (major =? 2) && flag flags 0x10 then 10 else 0) ->
  (forall p q, junk ++ $"ID3" = p ++ $"ID3" ++ q -> p = junk) -> lenN junk + 3 <= window ->
  let data := junk ++ hdr_bytes major minor flags n ++ body ++ audio in
  save_id3v2 w window f l data = Ok log ->
  exists tag, create_tag w f l = Ok tag /\ apply_log data log = tag ++ audio.
Proof.
  intros w window f l junk major minor flags n body audio log Hn Hm Hf Hb Hj Hw data E. unfold save_id3v2 in E.
  destruct (create_tag w f l) as [tag| |]; try discriminate E. exists tag. split; auto.
  set (b1 := takeN (unsynch32 n) body). set (b2 := dropN (unsynch32 n) body).
  assert (B : body = b1 ++ b2) by (symmetry; apply takeN_dropN). assert (L1 : lenN b1 = unsynch32 n) by (subst b1; rewrite lenN_takeN; lia).
  destruct (C54_junk_then_tag junk major minor flags n b1 (b2 ++ audio) window false Hn Hm Hf L1 Hj Hw) as (h & t & F & _).
  replace (junk ++ hdr_bytes major minor flags n ++ b1 ++ b2 ++ audio) with data in F by (subst data; rewrite B, <- !app_assoc; reflexivity).
  rewrite F in E. apply Ok_inj in E. subst log. rewrite two_ops. f_equal.
  assert (LH : lenN (hdr_bytes major minor flags n) = 10) by (unfold hdr_bytes; rewrite !lenN_app, be_enc_len; reflexivity).
  replace data with ((junk ++ hdr_bytes major minor flags n ++ body) ++ audio) by (subst data; rewrite <- !app_assoc; reflexivity).
  apply dropN_app. rewrite !lenN_app, LH, Hb. unfold tag_len. lia.
Qed.
Print Assumptions C148_replaced.
(** Without a tag marker in the first bytes the new tag is put in front of the whole file. *)
Theorem C148_added : forall w window f l data log,
  (forall p q, takeN window data <> p ++ $"ID3" ++ q) -> save_id3v2 w window f l data = Ok log ->
  exists tag, create_tag w f l = Ok tag /\ apply_log data log = tag ++ data.
Proof.
  intros w window f l data log H E. unfold save_id3v2 in E. destruct (create_tag w f l) as [tag| |]; try discriminate E. exists tag. split; auto.
  unfold find_id3v2 in E. rewrite dropN_0 in E. pose proof (C54_junk_search (takeN window data)) as J.
  destruct (find_id3v2_in_junk (takeN window data)) as [[[off r]|]| |]; try contradiction.
  - destruct J as (p & J & _). exfalso. apply (H p r J).
  - cbn [bind] in E. apply Ok_inj in E. subst log. rewrite dropN_0. apply two_ops.
Qed.
Print Assumptions C148_added.
(** What [create_tag] makes is a header and a body of the size it gives. *)
Lemma tag_shape : forall w f l tag, tag_flags_ok (w_v23 w) f -> l <> [] -> create_tag w f l = Ok tag -> lenN tag < 2 ^ 32 ->
  exists fl z body, tag = hdr_bytes (if w_v23 w then 3 else 4) 0 fl z ++ body /\ z < 2 ^ 32 /\ flag fl 0x40 = false /\
    flag fl 0x10 = tf_footer f /\ lenN body = unsynch32 z + (if tf_footer f then 10 else 0).
Proof.
  intros w f l tag (Fu & Fc & Fr & Fx) NE E Hl.
  unfold create_tag in E. destruct l as [|f0 l0]; [congruence|]. set (l := f0 :: l0) in *.
  destruct (write_frames w l) as [fb| |] eqn:W; cbn [bind] in E; try discriminate E.
  set (padding := if tf_footer f then 0 else match w_padding w with Some n => n | None => 0 end) in *.
  assert (X0 : ext_len f = 0) by (unfold ext_len, has_restr; rewrite Fc, Fr; reflexivity).
  assert (X1 : forall c, ext_header f c = []) by (intro; unfold ext_header, has_restr; rewrite Fc, Fr; reflexivity).
  rewrite X0, Fc, N.add_0_l in E. cbn [andb] in E.
  set (len := (lenN fb + padding) mod 2 ^ 32) in *.
  assert (Hlen : len < 2 ^ 32) by (apply N.mod_lt; discriminate).
  destruct (N.ltb_spec U32_MAX len); [unfold U32_MAX in *; change (2 ^ 32) with 4294967296 in *; lia|].
  destruct (synch32_correct len Hlen) as (S1 & S2).
  destruct (N.ltb_spec len (2 ^ 28)) as [Hs|Hs]; [|apply S1 in Hs; rewrite Hs in E; discriminate E].
  destruct (S2 Hs) as (z & Ez & (Sb & _) & _ & Uz). rewrite Ez in E. cbn [as_ferr bind] in E. cbv zeta in E.
  rewrite !X1 in E. cbn [andb] in E. change (@app N [] fb) with fb in E. apply Ok_inj in E.
  set (info := [if w_v23 w then 3 else 4; 0; if w_v23 w then as_id3v23_byte f else as_id3v24_byte f] ++ be_enc 4 z) in *.
  exists (if w_v23 w then as_id3v23_byte f else as_id3v24_byte f), z, (fb ++ repeat 0 (N.to_nat padding) ++ (if tf_footer f then $"3DI" ++ info else [])).
  assert (Et : tag = ($"ID3" ++ info) ++ fb ++ repeat 0 (N.to_nat padding) ++ (if tf_footer f then $"3DI" ++ info else [])).
  { rewrite <- E. subst padding. destruct (tf_footer f).
    - change (repeat 0 (N.to_nat 0)) with (@nil N). rewrite <- !app_assoc. reflexivity.
    - rewrite app_nil_r, <- !app_assoc. reflexivity. }
  split. exact Et. split; auto.
  assert (Fx' : w_v23 w = true -> tf_experimental f = false) by exact Fx.
  split. { destruct f as [u x ft c r]. cbn [tf_unsync tf_experimental] in *. destruct (w_v23 w); [rewrite Fx' by auto|]; destruct u, ft; try destruct x; reflexivity. }
  split. { destruct f as [u x ft c r]. cbn [tf_unsync tf_experimental] in *. destruct (w_v23 w); [rewrite Fx' by auto|]; destruct u, ft; try destruct x; reflexivity. }
  assert (Li : lenN (if tf_footer f then $"3DI" ++ info else []) = if tf_footer f then 10 else 0) by (destruct (tf_footer f); reflexivity).
  rewrite Uz. rewrite !lenN_app, Li, lenN_repeat. rewrite N2Nat.id. rewrite Et, !lenN_app, lenN_repeat, Li in Hl. subst len. rewrite N.mod_small; [lia|].
  rewrite N2Nat.id in Hl. lia.
Qed.
(** Saving the same frames again changes nothing. *)
Theorem C148_again : forall w window f l tag audio, tag_flags_ok (w_v23 w) f -> l <> [] -> create_tag w f l = Ok tag -> lenN tag < 2 ^ 32 -> 3 <= window ->
  exists log, save_id3v2 w window f l (tag ++ audio) = Ok log /\ apply_log (tag ++ audio) log = tag ++ audio.
Proof.
  intros w window f l tag audio Ff NE E Hl Hw. destruct (tag_shape w f l tag Ff NE E Hl) as (fl & z & body & Et & Hz & F4 & F1 & Lb).
  assert (Hm : (if w_v23 w then 3 else 4) = 2 \/ (if w_v23 w then 3 else 4) = 3 \/ (if w_v23 w then 3 else 4) = 4) by (destruct (w_v23 w); auto).
  assert (Hj : forall p q, [] ++ $"ID3" = p ++ $"ID3" ++ q -> p = []).
  { intros p q H. destruct p; auto. apply (f_equal (@length N)) in H. rewrite !app_length in H. cbn in H. lia. }
  assert (N2 : negb ((if w_v23 w then 3 else 4) =? 2) && flag fl 0x10 = tf_footer f) by (rewrite F1; destruct (w_v23 w); reflexivity).
  assert (exists log, save_id3v2 w window f l (tag ++ audio) = Ok log) as (log & S).
  { unfold save_id3v2. rewrite E. set (b1 := takeN (unsynch32 z) body). set (b2 := dropN (unsynch32 z) body).
    assert (B : body = b1 ++ b2) by (symmetry; apply takeN_dropN). assert (L1 : lenN b1 = unsynch32 z) by (subst b1; rewrite lenN_takeN; lia).
    destruct (C54_junk_then_tag [] _ 0 fl z b1 (b2 ++ audio) window false Hz Hm F4 L1 Hj ltac:(rewrite lenN_nil; lia)) as (h & t & F & _).
    cbn [app] in F. replace (tag ++ audio) with (hdr_bytes (if w_v23 w then 3 else 4) 0 fl z ++ b1 ++ b2 ++ audio) by (rewrite Et, B, <- !app_assoc; reflexivity).
    rewrite F. eexists. reflexivity. }
  exists log. split; auto.
  pose proof (C148_replaced w window f l [] _ 0 fl z body audio log Hz Hm F4 ltac:(rewrite N2; exact Lb) Hj ltac:(rewrite lenN_nil; lia)) as R. cbv zeta in R. cbn [app] in R.
  replace (hdr_bytes (if w_v23 w then 3 else 4) 0 fl z ++ body ++ audio) with (tag ++ audio) in R by (rewrite Et, <- app_assoc; reflexivity).
  destruct (R S) as (tag' & E' & A). rewrite E in E'. apply Ok_inj in E'. now subst tag'.
Qed.
Print Assumptions C148_again.
Example C148_ex : match save_id3v2 w24 1024 no_flags [FText (head ($"TIT2")) Latin1 ($"A")] ($"xx" ++ hdr_bytes 3 0 0 2 ++ [0; 0] ++ $"audio") with
  | Ok log => apply_log ($"xx" ++ hdr_bytes 3 0 0 2 ++ [0; 0] ++ $"audio") log = $"ID3" ++ [4; 0; 0; 0; 0; 0; 12] ++ $"TIT2" ++ [0; 0; 0; 2; 0; 0; 0; 65] ++ $"audio"
  | _ => False end.
Proof. vm_compute. reflexivity. Qed.

(** ** C149: what saving can lose *)
(** While a file is being saved everything is lost for a moment: after a crash the file may be empty. *)
Theorem C149_crash_refuted : forall w window f l data log, save_id3v2 w window f l data = Ok log -> crash data log [].
Proof.
  intros w window f l data log E. unfold save_id3v2 in E. destruct (create_tag w f l); try discriminate E. destruct (find_id3v2 _ _ _ _) as [[[h t] p]| |]; try discriminate E.
  apply Ok_inj in E. subst log. assert (X : apply_log data [OpTrunc 0] = []).
  { unfold apply_log. cbn [fold_left apply_op]. unfold set_len. rewrite takeN_0. reflexivity. }
  rewrite <- X. apply (crash_clean data _ [OpTrunc 0] [OpWrite 0 (a ++ dropN p data)]). reflexivity.
Qed.
Print Assumptions C149_crash_refuted.
(** The letters "ID3" in the audio, with no tag in the file: all that is before them is removed. *)
Theorem C149_letters_refuted : forall w window f l before major rest log,
  (forall p q, before ++ $"ID3" = p ++ $"ID3" ++ q -> p = before) -> lenN before + 3 <= window -> 5 <= major -> 6 <= lenN rest ->
  let data := before ++ $"ID3" ++ major :: rest in
  save_id3v2 w window f l data = Ok log -> exists tag, create_tag w f l = Ok tag /\ apply_log data log = tag ++ $"ID3" ++ major :: rest.
Proof.
  intros w window f l before major rest log Hj Hw Hm Hr data E. unfold save_id3v2 in E. destruct (create_tag w f l) as [tag| |]; try discriminate E. exists tag. split; auto.
  unfold find_id3v2 in E. rewrite dropN_0 in E. pose proof (C54_junk_search (takeN window data)) as J.
  assert (W : exists w', takeN window data = before ++ $"ID3" ++ w').
  { subst data. rewrite takeN_app_ge by lia. exists (takeN (window - lenN before - 3) (major :: rest)). f_equal. rewrite takeN_app_ge by (change (lenN $"ID3") with 3; lia). f_equal. }
  destruct W as [w' W]. rewrite W in *.
  destruct (find_id3v2_in_junk (before ++ $"ID3" ++ w')) as [[[off r]|]| |]; try contradiction.
  2: { exfalso. apply (J before w'). reflexivity. }
  destruct J as (pre & J1 & J2 & J3). cbn [bind] in E.
  assert (P : pre = before).
  { specialize (J3 before w' eq_refl). assert (Q : exists q, before ++ $"ID3" = pre ++ $"ID3" ++ q).
    { apply (f_equal (takeN (lenN before + 3))) in J1. rewrite app_assoc in J1. rewrite takeN_app in J1 by (rewrite lenN_app; reflexivity). rewrite app_assoc in J1.
      rewrite takeN_app_ge in J1 by (rewrite lenN_app; change (lenN $"ID3") with 3; lia). rewrite <- app_assoc in J1. eauto. }
    destruct Q as [q Q]. now apply Hj in Q. }
  subst pre. assert (R : r = w'). { apply app_inv_head in J1. now injection J1 as <-. } subst r.
  replace (0 + lenN (before ++ $"ID3" ++ w') - lenN w' - 3) with (lenN before) in E by (rewrite !lenN_app; change (lenN $"ID3") with 3; lia).
  assert (D : dropN (lenN before) data = $"ID3" ++ major :: rest) by (subst data; now apply dropN_app). rewrite D in E.
  assert (Hd : exists e r, header_parse ($"ID3" ++ major :: rest) = (Err e, r) /\ lenN r + 10 = lenN ($"ID3" ++ major :: rest)).
  { unfold header_parse. destruct (read_exact 10 ($"ID3" ++ major :: rest)) as [[h r]|] eqn:RE.
    - apply read_exact_spec in RE as (E1 & L). assert (Eh : h = $"ID3" ++ major :: takeN 6 rest).
      { assert (T : takeN 10 ($"ID3" ++ major :: rest) = h) by (rewrite E1; now apply takeN_app). rewrite <- T.
        rewrite takeN_app_ge by (change (lenN $"ID3") with 3; lia). change (10 - lenN $"ID3") with 7. reflexivity. }
      replace (takeN 3 h) with (takeN 3 ($"ID3" ++ major :: takeN 6 rest)) by (now rewrite Eh). replace (nth 3 h 0) with (nth 3 ($"ID3" ++ major :: takeN 6 rest) 0) by (now rewrite Eh). change (takeN 3 ($"ID3" ++ major :: takeN 6 rest)) with ($"ID3"). rewrite list_eqb_refl. cbn [negb].
      change (nth 3 ($"ID3" ++ major :: takeN 6 rest) 0) with major. replace (major =? 2) with false by lia. replace (major =? 3) with false by lia. replace (major =? 4) with false by lia.
      eexists _, r. split. reflexivity. rewrite E1, lenN_app. lia.
    - exfalso. unfold read_exact in RE. destruct (N.leb_spec 10 (lenN ($"ID3" ++ major :: rest))); [discriminate|]. rewrite lenN_app, lenN_cons in H. change (lenN $"ID3") with 3 in H. lia. }
  destruct Hd as (e & r & Hp & Lr). rewrite Hp in E. assert (Ld : lenN data = lenN before + lenN ($"ID3" ++ major :: rest)) by (subst data; now rewrite lenN_app).
  rewrite N.max_r in E by lia. unfold seek_back in E. replace (lenN data - lenN r) with (lenN before + 10) in E by lia.
  replace (lenN before + 10 <? 10) with false in E by lia. replace (lenN before + 10 - 10) with (lenN before) in E by lia.
  apply Ok_inj in E. subst log. rewrite two_ops, D. reflexivity.
Qed.
Print Assumptions C149_letters_refuted.
(** An old tag with an extended header: as many bytes of the audio as it has are removed too. *)
Theorem C149_extended_refuted : ~ forall w window f l audio log, save_id3v2 w window f l (ext_tag ++ audio) = Ok log ->
  exists tag, create_tag w f l = Ok tag /\ apply_log (ext_tag ++ audio) log = tag ++ audio.
Proof.
  intro H. destruct (H w24 1024 no_flags [] ($"audio data") [OpTrunc 0; OpWrite 0 ($"data")]) as (tag & E & A).
  vm_compute. reflexivity. vm_compute in E. apply Ok_inj in E. subst tag. vm_compute in A. discriminate A.
Qed.
Print Assumptions C149_extended_refuted.
(** With no junk allowed not even a tag at the start of the file is found: the file has two tags afterwards. *)
Theorem C149_window_refuted : forall w window f l tag data, window < 3 -> create_tag w f l = Ok tag ->
  exists log, save_id3v2 w window f l data = Ok log /\ apply_log data log = tag ++ data.
Proof.
  intros w window f l tag data Hw E. unfold save_id3v2. rewrite E. unfold find_id3v2. rewrite dropN_0. pose proof (C54_junk_search (takeN window data)) as J.
  destruct (find_id3v2_in_junk (takeN window data)) as [[[off r]|]| |]; try contradiction.
  - exfalso. destruct J as (p & J & _). apply (f_equal lenN) in J. rewrite lenN_takeN, !lenN_app in J. change (lenN $"ID3") with 3 in J. lia.
  - cbn [bind]. eexists. split. reflexivity. rewrite dropN_0. apply two_ops.
Qed.
Print Assumptions C149_window_refuted.
