(** C244: what [dump_to] writes is what saving puts into the file (tag/utils.rs 51-110 and the [dump_to] of the tags: each writes the bytes the writers of files start from). *)
From Verif Require Import BaseLemmas StrLemmas TextProof Id3v1Model Id3v1Thm IffModel IffProof2 AiffModel KeptProof FileModel.
From Verif Require ApeModel ApeThm2 IffThm2 GenericChunkThm.
From Verif Require Import IffSpec ChunkTagModel Id3v2HeaderModel FrameModel FrameWriteModel.

Definition holds (part whole : bytes) : Prop := exists p q, whole = p ++ part ++ q.
(** [k]: how much there is before, at least. *)
Definition holds_from (k : N) (part whole : bytes) : Prop := exists p q, whole = p ++ part ++ q /\ k <= lenN p.
Lemma holds_any : forall k part whole, holds_from k part whole -> holds part whole.
Proof. intros k part whole (p & q & E & _). now exists p, q. Qed.
Lemma holds_nil : forall whole, holds [] whole. Proof. intro whole. now exists [], whole. Qed.
Lemma splice_holds : forall E a b new v w, splice (E := E) a b new v = Ok w -> holds_from a new w.
Proof.
  intros E a b new v w H. unfold splice in H. destruct ((b <? a) || (lenN v <? b)) eqn:B; [discriminate|]. injection H as <-. apply orb_false_iff in B as [B1 B2]. apply N.ltb_ge in B1, B2.
  exists (takeN a v), (dropN b v). split; auto. rewrite lenN_takeN by lia. lia.
Qed.
Lemma size_holds : forall part f v, lenN f = 4 -> holds_from 12 part v -> holds part (write_at 4 f v).
Proof.
  intros part f v LF (p & q & -> & L). unfold write_at. rewrite LF. change (4 + 4) with 8. rewrite dropN_app_le by lia.
  exists (takeN 4 (p ++ part ++ q) ++ repeat 0 (N.to_nat (4 - lenN (p ++ part ++ q))) ++ f ++ dropN 8 p), q. now rewrite <- !app_assoc.
Qed.
Lemma size_splice_holds : forall E part f v w, splice (E := E) 4 8 f v = Ok w -> holds_from 12 part v -> holds part w.
Proof.
  intros E part f v w H (p & q & -> & L). unfold splice in H. destruct (_ || _); [discriminate|]. injection H as <-. rewrite (dropN_app_le _ 8) by lia.
  exists (takeN 4 (p ++ part ++ q) ++ f ++ dropN 8 p), q. now rewrite <- !app_assoc.
Qed.

(** A block is written even if there is nothing in the tag, unless there is an old one: then that is removed. *)
Theorem C244_id3v1 : forall t lossy data b log, v1_encode t lossy = Ok b -> v1_is_empty t = false -> write_id3v1 data t lossy = Ok log -> holds b (apply_log data log).
Proof.
  intros t lossy data b log D E H. unfold write_id3v1 in H. destruct (find_id3v1 data) as [pos found]. rewrite E in H. cbn [andb] in H. rewrite D in H. injection H as <-.
  cbn [apply_log fold_left apply_op]. unfold write_at. eexists (takeN pos data ++ repeat 0 _), _. rewrite <- app_assoc. reflexivity.
Qed.
Print Assumptions C244_id3v1.
Theorem C244_id3v2 : forall w window f frames data b log, create_tag w f frames = Ok b -> save_id3v2 w window f frames data = Ok log -> exists audio, apply_log data log = b ++ audio.
Proof.
  intros w window f frames data b log D H. unfold save_id3v2 in H. rewrite D in H. destruct (find_id3v2 data 0 false (Some window)) as [[[h c] pos]| |]; try discriminate. injection H as <-.
  exists (dropN pos data). apply (rewrite_all_spec data).
Qed.
Print Assumptions C244_id3v2.
Theorem C244_riff : forall m t data b log, create_riff_info t = Ok b -> write_riff_info m data t = Ok log -> holds b (apply_log data log).
Proof.
  intros m t data info log D H. unfold write_riff_info in H. destruct (verify_wav data) as [[slen r]| |]; cbn [bind] in H; try discriminate. rewrite D in H. cbn [bind] in H.
  destruct (U32_MAX <? slen + 8); [discriminate|]. destruct (N.ltb_spec (lenN data) (slen + 8)); [discriminate|]. destruct (N.ltb_spec slen 4); [discriminate|].
  assert (MORE : forall k v, 12 <= k -> holds_from k info v -> holds_from 12 info v) by (intros k v K (p & q & E & L); exists p, q; split; auto; lia).
  destruct (find_info_list _ _ _) as [[[pos size]|]| |] eqn:E; cbn [bind] in H; try discriminate.
  - apply info_pos in E. cbn [chunks_new c_pos] in E. destruct (U32_MAX <? 8 + size); [discriminate|]. destruct (slen <? 8 + size); [discriminate|]. destruct (U32_MAX <? _); [discriminate|].
    destruct (splice (pos - 12) _ info data) as [v| |] eqn:S1; cbn [bind] in H; try discriminate. apply splice_holds in S1.
    destruct (splice 4 8 _ v) as [w| |] eqn:S2; cbn [bind] in H; try discriminate. injection H as <-. rewrite rewrite_all_spec. eapply size_splice_holds; [exact S2|]. eapply MORE; [|exact S1]. lia.
  - destruct (U32_MAX <? _); [discriminate|]. destruct (splice (slen + 8) _ info data) as [v| |] eqn:S1; cbn [bind] in H; try discriminate. apply splice_holds in S1.
    inversion H. rewrite rewrite_all_spec. apply size_holds; [reflexivity|]. eapply MORE; [|exact S1]. lia.
Qed.
Print Assumptions C244_riff.
Theorem C244_aiff : forall m t data b log, create_text_chunks t = Ok b -> write_aiff_text m data t = Ok log -> holds b (apply_log data log).
Proof.
  intros m t data text log D H. unfold write_aiff_text in H. destruct (verify_aiff data) as [[x r]| |]; cbn [bind] in H; try discriminate. rewrite D in H. cbn [bind] in H.
  destruct (find_text_chunks _ _ _ _ _) as [[texts comm]| |] eqn:E; cbn [bind] in H; try discriminate. apply text_pos in E as [F C]; [|constructor|discriminate].
  destruct comm as [comm|]; [|discriminate]. specialize (C comm eq_refl).
  assert (MORE : forall k v, 12 <= k -> holds_from k text v -> holds_from 12 text v) by (intros k v K (p & q & X & L); exists p, q; split; auto; lia).
  assert (FR : Forall (fun r => 12 <= fst r) (rev (sort_ranges texts))) by (apply Forall_rev, sort_all; exact F).
  assert (K : exists v, holds_from 12 text v /\ (let? w := splice (E := iff_error) 4 8 (be_enc 4 (as_u32 (lenN v - 8))) v in Ok (rewrite_all w)) = Ok log).
  { destruct (rev (sort_ranges texts)) as [|x0 l0].
    - destruct (splice comm comm text data) as [v| |] eqn:S1; cbn [bind] in H; try discriminate. exists v. split; [|exact H]. apply splice_holds in S1. eapply MORE; eauto.
    - assert (FL : 12 <= fst (last (x0 :: l0) (0, 0))). { rewrite Forall_forall in FR. apply FR. clear. revert x0. induction l0 as [|y l IH]; intro x0; [now left|]. right. apply IH. }
      destruct (drain_all (removelast (x0 :: l0)) data) as [u| |]; cbn [bind] in H; try discriminate.
      destruct (splice (fst (last (x0 :: l0) (0, 0))) _ text u) as [v| |] eqn:S1; cbn [bind] in H; try discriminate. exists v. split; [|exact H]. apply splice_holds in S1. eapply MORE; eauto. }
  destruct K as (v & HV & HL). destruct (splice 4 8 _ v) as [w| |] eqn:S2; cbn [bind] in HL; try discriminate. injection HL as <-. rewrite rewrite_all_spec. eapply size_splice_holds; eauto.
Qed.
Print Assumptions C244_aiff.
(** APE tags, if there is no APE tag 8 bytes after the start of the file or after its ID3v2 tag. *)
Theorem C244_ape : forall data cover tags ro items b log h c p, ApeModel.create_ape_tag ro items = Ok b -> find_id3v2 data 0 false None = Ok (h, c, p) -> takeN 8 (dropN (p + 8) data) <> $"APETAGEX" ->
  ApeModel.ape_write data cover tags ro items = Ok log -> holds b (apply_log data log).
Proof.
  intros data cover tags ro items b log h c p D FI NP H. unfold ApeModel.ape_write in H. destruct (ApeModel.find_existing data cover tags) as [[[header footer] pos]| |] eqn:E; cbn [bind] in H; try discriminate.
  assert (HN : header = None).
  { unfold ApeModel.find_existing in E. rewrite FI in E. unfold ApeModel.rd_at, ApeModel.rd_exact in E. cbn [snd fst] in E.
    destruct (read_exact 8 (dropN p data)) as [[x r]|] eqn:R1; cbn [ApeModel.or_io bind] in E; [|discriminate]. cbn [fst snd] in E. apply read_exact_spec in R1 as [R1 LX].
    assert (RD : r = dropN (p + 8) data) by (rewrite <- dropN_dropN, R1, dropN_app by exact LX; reflexivity).
    unfold ApeModel.read_ape_tag at 1 in E. unfold ApeModel.rd_exact in E. cbn [snd fst] in E. destruct (read_exact 8 r) as [[y r']|] eqn:R2; cbn [ApeModel.or_io bind] in E; [|discriminate].
    apply read_exact_spec in R2 as [R2 LY]. destruct (list_eqb y ApeModel.PREAMBLE) eqn:P.
    { exfalso. apply NP. rewrite <- RD, R2, takeN_app by exact LY. now apply list_eqb_eq in P. }
    cbn [bind] in E. destruct (find_id3v1 data) as [p1 f1]. destruct (find_lyrics3v2 data p1) as [[[l1 l2] pp]| |]; try discriminate E. destruct (seek_back pp 32); [|discriminate E].
    destruct (ApeModel.read_ape_tag data true cover tags _) as [[[t2 h2] r2]| |]; cbn [bind] in E; try discriminate E.
    destruct t2; [destruct h2 as [[sz ct]|]; [destruct (pp <? sz); [discriminate E|]|]|]; now injection E as <- _ _. }
  subst header. rewrite D in H. cbn [bind] in H.
  assert (K : exists u v out, ApeModel.splice u v b data = Ok out /\ log = rewrite_all out).
  { destruct footer as [[u v]|]; [destruct (ApeModel.splice u v b data) as [out| |] eqn:S1|destruct (ApeModel.splice pos pos b data) as [out| |] eqn:S1]; cbn [bind] in H; try discriminate H; injection H as <-; eauto. }
  destruct K as (u & v & out & S1 & ->). rewrite rewrite_all_spec. unfold ApeModel.splice in S1. destruct (_ || _); [discriminate|]. injection S1 as <-. eexists _, _. reflexivity.
Qed.
Print Assumptions C244_ape.
(** ID3v2 tags without a footer in the chunks of WAV and AIFF files. *)
Theorem C244_chunk : forall be m upper w f frames magic kind old junk kept b log, tf_footer f = false -> create_tag w f frames = Ok b -> id_ok magic -> lenN kind = 4 -> b <> [] -> lenN b < 2 ^ 32 -> Forall chunk_ok old ->
  GenericChunkThm.replaces be (match w_padding w with Some _ => true | None => false end) (IffProof4.id3_name upper, b) old junk kept -> 12 + lenN (body be old) < 2 ^ 32 ->
  12 + lenN (body be (kept ++ [(IffProof4.id3_name upper, b)])) < 2 ^ 32 ->
  save_id3_chunk be m upper w f frames (iff_file be magic kind old ++ junk) = Ok log -> holds b (apply_log (iff_file be magic kind old ++ junk) log).
Proof.
  intros be m upper w f frames magic kind old junk kept b log NF D IM KL NE LB OK R L1 L2 H. unfold save_id3_chunk in H.
  assert (X : without_footer f = f) by (destruct f; cbn in *; subst; reflexivity). rewrite X, D in H.
  destruct (GenericChunkThm.replaces_saves be upper _ m magic kind b old junk kept IM KL NE LB OK R L1 L2) as (ops & W & A). rewrite H in W. injection W as <-. rewrite A.
  assert (B : body be (kept ++ [(IffProof4.id3_name upper, b)]) = (body be kept ++ IffProof4.id3_name upper ++ size32 be (lenN b)) ++ b ++ pad_of b).
  { unfold body. rewrite flat_map_app. cbn [flat_map]. rewrite app_nil_r. unfold chunk_bytes at 2. cbn [fst snd]. now rewrite <- !app_assoc. }
  unfold iff_file. rewrite B. generalize (size32 be (4 + lenN ((body be kept ++ IffProof4.id3_name upper ++ size32 be (lenN b)) ++ b ++ pad_of b))). intro sz.
  exists (magic ++ sz ++ kind ++ body be kept ++ IffProof4.id3_name upper ++ size32 be (lenN b)), (pad_of b ++ junk). now rewrite <- !app_assoc.
Qed.
Print Assumptions C244_chunk.

(** ** Examples *)
Fixpoint is_prefix (a b : bytes) : bool := match a, b with [], _ => true | x :: a, y :: b => (x =? y) && is_prefix a b | _, _ => false end.
Fixpoint holdsb (part whole : bytes) : bool := is_prefix part whole || match whole with [] => false | _ :: w => holdsb part w end.
Lemma is_prefix_app : forall a q, is_prefix a (a ++ q) = true.
Proof. induction a as [|x a IH]; intro q; [reflexivity|]. cbn [is_prefix app]. now rewrite N.eqb_refl, IH. Qed.
Lemma holdsb_true : forall part whole, holds part whole -> holdsb part whole = true.
Proof.
  intros part whole (p & q & ->). induction p as [|x p IH]; cbn [app].
  - pose proof (is_prefix_app part q) as I. destruct (part ++ q); cbn [holdsb]; now rewrite I.
  - cbn [holdsb]. rewrite IH. apply orb_true_r.
Qed.
Definition result {E} (data : bytes) (r : res E (list fop)) : option bytes := match r with Ok log => Some (apply_log data log) | _ => None end.
Definition dumped {E} (r : res E bytes) : bytes := match r with Ok b => b | _ => [] end.
Definition checked {E F} (data : bytes) (d : res E bytes) (r : res F (list fop)) : option (N * bool) :=
  match d, result data r with Ok b, Some v => Some (lenN b, holdsb b v) | _, _ => None end.
Definition v1_ex : id3v1 := mkV1 (Some ($"T")) None None None None None None.
Definition frames_ex : list frame := [Id3v2TagModel.text_frame ($"TIT2") ($"T")].
Definition w_ex : wopts := mkW false false false None.
Definition PLAIN : tag_flags := mkTFlags false false false false None.
Definition FOOTER : tag_flags := mkTFlags false false true false None.
Definition wav_ex : bytes := riff_file [($"data", [1; 2])].
Definition aiff_ex : bytes := iff_file true ($"FORM") ($"AIFF") [($"COMM", repeat 0 18)].
Example C244_ex :
  checked [1; 2; 3] (v1_encode v1_ex false) (write_id3v1 [1; 2; 3] v1_ex false) = Some (128, true) /\
  checked (repeat 1 20) (create_tag w_ex FOOTER frames_ex) (save_id3v2 w_ex 1024 FOOTER frames_ex (repeat 1 20)) = Some (32, true) /\
  checked wav_ex (create_riff_info [($"INAM", $"T")]) (write_riff_info Strict wav_ex [($"INAM", $"T")]) = Some (22, true) /\
  checked aiff_ex (create_text_chunks (mkAt (Some ($"T")) None None None None)) (write_aiff_text Strict aiff_ex (mkAt (Some ($"T")) None None None None)) = Some (10, true) /\
  checked (repeat 1 50) (ApeModel.create_ape_tag false (ApeThm2.one ($"Title") ($"T"))) (ApeModel.ape_write (repeat 1 50) true true false (ApeThm2.one ($"Title") ($"T"))) = Some (79, true) /\
  checked wav_ex (create_tag w_ex PLAIN frames_ex) (save_id3_chunk false Strict true w_ex PLAIN frames_ex wav_ex) = Some (22, true).
Proof. repeat split; vm_compute; reflexivity. Qed.
Example C244_ape_file : exists h c, find_id3v2 (repeat 1 50) 0 false None = Ok (h, c, 0) /\ takeN 8 (dropN 8 (repeat 1 50)) <> $"APETAGEX".
Proof. do 2 eexists. split; [vm_compute; reflexivity|vm_compute; discriminate]. Qed.
(** An empty ID3v1 tag is dumped as a block, but saving it removes the block of the file. *)
Theorem C244_empty_refuted : exists t data b log, v1_encode t false = Ok b /\ lenN b = 128 /\ write_id3v1 data t false = Ok log /\ ~ holds b (apply_log data log).
Proof.
  exists (mkV1 None None None None None None None), ([1; 2; 3] ++ dumped (v1_encode v1_ex false)). eexists _, _. split; [vm_compute; reflexivity|]. split; [vm_compute; reflexivity|]. split; [vm_compute; reflexivity|].
  intro H. apply holdsb_true in H. vm_compute in H. discriminate H.
Qed.
Print Assumptions C244_empty_refuted.
(** The APE tag 8 bytes after the start is removed after the new one was written over it, which cuts the new one. *)
Theorem C244_ape_refuted : exists data items b log, ApeModel.create_ape_tag false items = Ok b /\ ApeModel.ape_write data true true false items = Ok log /\ ~ holds b (apply_log data log).
Proof.
  exists (repeat 7 8 ++ ApeThm2.dumped (ApeThm2.one ($"Title") ($"Old title"))), (ApeThm2.one ($"Title") ($"A new title")). eexists _, _.
  split; [vm_compute; reflexivity|]. split; [vm_compute; reflexivity|]. intro H. apply holdsb_true in H. vm_compute in H. discriminate H.
Qed.
Print Assumptions C244_ape_refuted.
(** Footers are dumped, but not saved to WAV and AIFF files. *)
Theorem C244_footer_refuted : exists b log, create_tag w_ex FOOTER frames_ex = Ok b /\ save_id3_chunk false Strict true w_ex FOOTER frames_ex wav_ex = Ok log /\ ~ holds b (apply_log wav_ex log).
Proof.
  eexists _, _. split; [vm_compute; reflexivity|]. split; [vm_compute; reflexivity|]. intro H. apply holdsb_true in H. vm_compute in H. discriminate H.
Qed.
Print Assumptions C244_footer_refuted.
