(** Reading an ID3v2 tag ends and does not panic, whatever is in the file. *)
From Verif Require Import BaseLemmas SynchProof FrameTotalProof.
From Verif Require Export FrameSpec FrameReadModel.
From Verif Require Import FrameThm.

(** For all inputs, options and modes, as long as decompressing does not make the content larger (so in particular when nothing is
    compressed). *)
Theorem C143_total : forall inflate h o r, (forall b c, inflate b = Some c -> lenN c <= lenN b) -> parse_id3v2 inflate h o r <> Panic.
Proof.
  intros inflate h o r I. unfold parse_id3v2. cbv zeta. set (body := if _ && _ then _ else _).
  pose proof (all_fine inflate (h_version h) o I (S (length body)) (tf_unsync (h_flags h)) [] body) as F.
  destruct (read_all _ _ _ _ _ _ body) as [[l y]| |]; cbn [bind fine] in *; try discriminate. exfalso. apply F. unfold lenN. lia.
Qed.
Print Assumptions C143_total.
(** Where the reader is afterwards does not depend on the frames: right behind the tag. *)
Theorem C143_position : forall inflate h o r t rest, parse_id3v2 inflate h o r = Ok (t, rest) ->
  rest = dropN (h_size h - h_ext_size h) r /\ t_version t = h_version h /\ t_flags t = h_flags h.
Proof.
  intros inflate h o r t rest E. unfold parse_id3v2 in E. cbv zeta in E. destruct (read_all _ _ _ _ _ _ _) as [[l y]| |]; cbn [bind] in E; try discriminate E.
  injection E as <- <-. auto.
Qed.
Print Assumptions C143_position.
(** Chapters in chapters: [n] of them take 27 bytes each. *)
Fixpoint nest (n : nat) : bytes :=
  match n with O => [] | S n => $"CHAP" ++ be_enc 4 (17 + lenN (nest n)) ++ [0; 0] ++ repeat 0 17 ++ nest n end.
Fixpoint nested (n : nat) : list frame :=
  match n with O => [] | S n => [FChap (head ($"CHAP")) [] (0, 0) (0, 0) (nested n)] end.
Lemma nest_len : forall n, lenN (nest n) = 27 * N.of_nat n.
Proof.
  induction n. reflexivity. cbn [nest]. rewrite !lenN_app, be_enc_len, IHn. change (lenN ($"CHAP")) with 4. change (lenN [0; 0]) with 2. change (lenN (repeat 0 17)) with 17. lia.
Qed.
Lemma chap_name : valid_name ($"CHAP").
Proof. split; [reflexivity|]. repeat (apply Forall_cons; [cbn; lia|]). apply Forall_nil. Qed.
Lemma nest_read : forall inflate o n fuel, 27 * N.of_nat n < 2 ^ 32 -> (n < fuel)%nat -> read_all inflate fuel V3 false o [] (nest n) = Ok (nested n, []).
Proof.
  intros inflate o. induction n as [|n IH]; intros [|fuel] B F; try lia.
  - reflexivity.
  - cbn [nest nested]. assert (L := nest_len n). cbn [read_all].
    assert (E : read_frame inflate (read_all inflate fuel V3 false o []) V3 false o (nest (S n)) = Ok (PNext (FChap (head ($"CHAP")) [] (0, 0) (0, 0) (nested n)), [])).
    { cbn [nest]. set (sz := be_enc 4 (17 + lenN (nest n))). set (r := repeat 0 17 ++ nest n).
      assert (Lr : lenN r = 17 + lenN (nest n)) by (subst r; rewrite lenN_app; reflexivity).
      replace ($"CHAP" ++ sz ++ [0; 0] ++ r) with (($"CHAP" ++ sz ++ [0; 0]) ++ r) by now rewrite <- !app_assoc.
      destruct (C137_header w23 (fo_implicit o) ($"CHAP") ff_default (17 + lenN (nest n)) ($"CHAP" ++ sz ++ [0; 0]) r) as (_ & fl & H & Ef).
      { apply chap_name. } { intros _ _. repeat split; discriminate. } { lia. } { reflexivity. }
      change (negb (w_v23 w23)) with false in H. change fl with fl in Ef. vm_compute in Ef. unfold read_frame. cbn [is_v2 is_v4]. rewrite H, Ef. clear H Ef.
      change (id_eqb (Valid ($"CHAP")) (Valid ($"APIC"))) with false. rewrite andb_false_r. cbn [andb]. cbv zeta.
      replace (17 + lenN (nest n) =? 0) with false by lia. unfold read_extras. cbn [ff_encryption ff_group ff_length ff_compression is_some orb bind].
      replace (17 + lenN (nest n) =? 0) with false by lia. cbn [ff_unsync ff_compression ff_encryption is_some].
      assert (T : takeN (17 + lenN (nest n)) r = r) by (apply takeN_all; lia). assert (D : dropN (17 + lenN (nest n)) r = []) by (apply dropN_all; lia). rewrite T, D.
      match goal with |- context [parse_content ?k ?i ?f ?v ?m r] => change (parse_content k i f v m r) with (parse_chap k (mkFH (Valid ($"CHAP")) f) v r) end.
      unfold parse_chap. cbn [is_v2]. subst r.
      replace (dec_term Latin1 (repeat 0 17 ++ nest n)) with (Ok (E := ferr) (mkDec [] 1 (0, 0), repeat 0 16 ++ nest n)) by reflexivity. cbn [bind].
      change (repeat 0 16 ++ nest n) with (repeat 0 4 ++ repeat 0 4 ++ repeat 0 4 ++ repeat 0 4 ++ nest n). unfold read_be.
      do 4 (rewrite read_exact_app by reflexivity; cbn [from_opt bind]). rewrite IH by lia. cbn [bind content_frame d_content app]. reflexivity. }
    change ($"CHAP" ++ be_enc 4 (17 + lenN (nest n)) ++ [0; 0] ++ repeat 0 17 ++ nest n) with (nest (S n)). rewrite E. cbn [bind]. destruct fuel; [lia|]. reflexivity.
Qed.
(** The depth of the recursion is only limited by the size of the tag: 27 bytes for each level. *)
Theorem C143_depth : forall inflate o n, 27 * N.of_nat n < 2 ^ 28 ->
  parse_id3v2 inflate (mkHdr V3 no_flags (27 * N.of_nat n) 0) o (nest n) = Ok (mkT V3 no_flags (nested n), []) /\ lenN (nest n) = 27 * N.of_nat n.
Proof.
  intros inflate o n H. split; [|apply nest_len].
  unfold parse_id3v2. cbn [h_size h_ext_size h_version h_flags tf_unsync no_flags andb is_v3]. cbv zeta. rewrite N.sub_0_r, takeN_all, dropN_all by (rewrite nest_len; lia).
  rewrite nest_read. 2: lia. 2: { pose proof (nest_len n) as L. unfold lenN in L. lia. } cbn [bind]. rewrite andb_true_r. destruct (fo_implicit o), n; reflexivity.
Qed.
Print Assumptions C143_depth.
(** A compressed chapter whose decompressed content holds the same chapter again: no depth is enough. *)
Definition again (c : bytes) : bytes := $"CHAP" ++ be_enc 4 (4 + lenN c) ++ [0; 0x80] ++ [0; 0; 0; 0] ++ c.
Theorem C143_compressed_refuted : forall inflate o c, 0 < lenN c < 2 ^ 28 -> inflate c = Some (repeat 0 17 ++ again c) ->
  forall fuel, read_all inflate fuel V3 false o [] (again c) = Panic.
Proof.
  intros inflate o c Hc HI. induction fuel as [|fuel IH]. reflexivity. cbn [read_all].
  enough (E : read_frame inflate (read_all inflate fuel V3 false o []) V3 false o (again c) = Panic) by now rewrite E.
  set (kids := read_all inflate fuel V3 false o []) in *. unfold again at 1. set (sz := be_enc 4 (4 + lenN c)). set (r := [0; 0; 0; 0] ++ c).
  replace ($"CHAP" ++ sz ++ [0; 0x80] ++ r) with (($"CHAP" ++ sz ++ [0; 0x80]) ++ r) by now rewrite <- !app_assoc.
  destruct (C137_header w23 (fo_implicit o) ($"CHAP") (mkFF false false false None true None false None) (4 + lenN c) ($"CHAP" ++ sz ++ [0; 0x80]) r) as (_ & fl & H & Ef).
  { apply chap_name. } { intros _ _. repeat split; discriminate. } { lia. } { reflexivity. }
  change (negb (w_v23 w23)) with false in H. vm_compute in Ef. unfold read_frame. cbn [is_v2 is_v4]. rewrite H, Ef. clear H Ef.
  change (id_eqb (Valid ($"CHAP")) (Valid ($"APIC"))) with false. rewrite andb_false_r. cbn [andb]. cbv zeta.
  replace (4 + lenN c =? 0) with false by lia. unfold read_extras. cbn [ff_encryption ff_group ff_length ff_compression is_some orb bind].
  replace (4 + lenN c <? 4) with false by lia. unfold read_be. subst r. rewrite read_exact_app by reflexivity. cbn [from_opt bind].
  replace (4 + lenN c - 4) with (lenN c) by lia. replace (lenN c =? 0) with false by lia. cbn [set_length ff_unsync ff_compression ff_encryption is_some].
  rewrite takeN_all by lia. rewrite HI. cbn [from_opt bind]. set (rest := again c) in *.
  match goal with |- context [parse_content ?k ?i ?f ?v ?m ?z] => change (parse_content k i f v m z) with (parse_chap k (mkFH (Valid ($"CHAP")) f) v z) end.
  unfold parse_chap. cbn [is_v2].
  replace (dec_term Latin1 (repeat 0 17 ++ rest)) with (Ok (E := ferr) (mkDec [] 1 (0, 0), repeat 0 16 ++ rest)) by reflexivity. cbn [bind].
  change (repeat 0 16 ++ rest) with (repeat 0 4 ++ repeat 0 4 ++ repeat 0 4 ++ repeat 0 4 ++ rest). unfold read_be.
  do 4 (rewrite read_exact_app by reflexivity; cbn [from_opt bind]). rewrite IH. reflexivity.
Qed.
Print Assumptions C143_compressed_refuted.
(** Any bytes at all are read; here the second frame is cut off. *)
Example C143_ex :
  parse_id3v2 (fun _ => None) (mkHdr V4 no_flags 40 0) (mkFO Relaxed true true) ($"TIT2" ++ [0; 0; 0; 3; 0; 0; 0; 65; 66] ++ $"TALB" ++ [0; 0; 9; 0; 0; 0; 0; 65]) =
    Ok (mkT V4 no_flags [FText (head ($"TIT2")) Latin1 ($"AB"); FText (head ($"TALB")) Latin1 ($"A")], []) /\
  parse_id3v2 (fun _ => None) (mkHdr V3 no_flags 54 0) ex_opts (nest 2) =
    Ok (mkT V3 no_flags [FChap (head ($"CHAP")) [] (0, 0) (0, 0) [FChap (head ($"CHAP")) [] (0, 0) (0, 0) []]], []).
Proof. split; [vm_compute; reflexivity|vm_compute; reflexivity]. Qed.
