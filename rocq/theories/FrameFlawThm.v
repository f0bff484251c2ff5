(** ID3v2 tags: flags, damaged frames and frames that cannot be stored. *)
From Verif Require Import BaseLemmas SynchProof TextProof TextThm Id3v2HeaderProof Id3v2HeaderThm FrameProof1 FrameProof2 FrameTotalProof.
From Verif Require Export FrameSpec FrameWriteModel FrameReadModel.
From Verif Require Import FrameThm.

(** ** C144: the flags of a tag *)
(** An ID3v2.4 tag with a checksum or restrictions is always read back without any of its frames. *)
Theorem C144_extended_refuted : forall w inflate o f l tag rest,
  w_v23 w = false -> tf_crc f = true \/ tf_restrictions f <> None -> l <> [] -> create_tag w f l = Ok tag ->
  exists h body r, header_parse (tag ++ rest) = (Ok h, body) /\
    parse_id3v2 inflate h o body = Ok (mkT V4 (mkTFlags (tf_unsync f) (tf_experimental f) (tf_footer f) false None) [], r).
Proof.
  intros w inflate o f l tag rest V X NE E. unfold create_tag in E. destruct l as [|f0 l0]; [congruence|]. set (l := f0 :: l0) in *. rewrite V in E.
  destruct (write_frames w l) as [fb| |]; cbn [bind] in E; try discriminate E.
  assert (X' : tf_crc f || has_restr f = true) by (unfold has_restr; destruct X as [-> |X]; auto; destruct (tf_restrictions f); [apply orb_true_r|congruence]).
  set (padding := if tf_footer f then 0 else _) in *. set (len := (lenN fb + padding) mod 2 ^ 32) in *.
  destruct (U32_MAX <? ext_len f + len) eqn:B; [discriminate E|]. destruct (synch32 (ext_len f + len)) as [z| |] eqn:S; cbn [as_ferr bind] in E; try discriminate E.
  cbv zeta in E. destruct (tf_crc f && _) in E; [discriminate E|]. apply Ok_inj in E.
  assert (Le : 8 <= ext_len f) by (unfold ext_len; rewrite X'; destruct (tf_crc f); [|cbn [orb] in X'; rewrite X']; destruct (has_restr f); lia).
  assert (Hb : ext_len f + len < 2 ^ 32) by (unfold U32_MAX in B; change (2 ^ 32) with 4294967296; lia).
  destruct (synch32_correct (ext_len f + len) Hb) as (S1 & S2).
  destruct (N.ltb_spec (ext_len f + len) (2 ^ 28)) as [Hs|Hs]; [|apply S1 in Hs; congruence].
  destruct (S2 Hs) as (z' & Ez & (Sb & _) & _ & Uz). assert (z' = z) by congruence. subst z'.
  assert (exists body, tag = hdr_bytes 4 0 (as_id3v24_byte f) z ++ 0 :: body) as (body & Et).
  { rewrite <- E. unfold ext_header. rewrite X'. assert (Le' : ext_len f <= 14) by (unfold ext_len; destruct (_ || _), (tf_crc f), (has_restr f); lia).
    assert (B0 : exists k, be_enc 4 (ext_len f) = 0 :: k).
    { assert (ext_len f = 8 \/ ext_len f = 12 \/ ext_len f = 14) as [-> |[-> | ->]] by (unfold ext_len; rewrite X'; destruct (tf_crc f), (has_restr f); auto; discriminate X'). all: eexists; reflexivity. }
    destruct B0 as (k & ->). destruct (tf_footer f); eexists; unfold hdr_bytes; rewrite <- ?app_assoc; cbn [app]; reflexivity. }
  eexists _, _, _. split. { rewrite Et, <- app_assoc. apply C33_v24_flags. exact Sb. }
  unfold parse_id3v2. cbn [h_size h_ext_size h_version h_flags is_v4 is_v3 negb tf_unsync]. rewrite !andb_false_r, Uz, N.sub_0_r. cbn [app]. cbv zeta.
  set (b := takeN _ _). assert (Hb0 : exists c, b = 0 :: c).
  { subst b. unfold takeN. destruct (N.to_nat (ext_len f + len)) eqn:Z; [lia|]. cbn [firstn]. eauto. }
  destruct Hb0 as (c & Hb0). rewrite Hb0. cbn [length read_all]. unfold read_frame. cbn [is_v2 is_v4].
  assert (P : parse_header true (fo_implicit o) (0 :: c) = HEnd).
  { unfold parse_header. destruct (read_exact 10 (0 :: c)) as [[h r]|] eqn:R; auto. apply read_exact_spec in R as (R & L). destruct h; [discriminate L|]. injection R as <- _. reflexivity. }
  rewrite P. cbn [bind]. reflexivity.
Qed.
Print Assumptions C144_extended_refuted.
(** The unsynchronisation flag is written, but nothing is unsynchronised. *)
Theorem C144_unsync_refuted : ~ forall l fs, reread w24 (mkTFlags true false false false None) ex_opts l = Some fs -> fs = l.
Proof.
  intro H. specialize (H [FBin (head ($"XABC")) [255; 0; 1]] [FBin (mkFH (Valid ($"XABC")) (mkFF false false false None false None true None)) [255; 1]]).
  assert (X : reread w24 (mkTFlags true false false false None) ex_opts [FBin (head ($"XABC")) [255; 0; 1]] =
    Some [FBin (mkFH (Valid ($"XABC")) (mkFF false false false None false None true None)) [255; 1]]) by (vm_compute; reflexivity).
  specialize (H X). discriminate H.
Qed.
Print Assumptions C144_unsync_refuted.

(** ** C145: the flags of a frame *)
(** The flag for unsynchronisation, for compression and for the length of the data are written, but the content is not changed. *)
Definition flagged (c : bool) (e : option N) (u : bool) (n : option N) : frame_header := mkFH (Valid ($"XABC")) (mkFF false false false None c e u n).
Theorem C145_unsync_refuted : ~ forall d fs, reread w24 no_flags ex_opts [FBin (flagged false None true None) d] = Some fs -> fs = [FBin (flagged false None true None) d].
Proof.
  intro H. specialize (H [255; 0; 1] [FBin (flagged false None true None) [255; 1]]).
  assert (X : reread w24 no_flags ex_opts [FBin (flagged false None true None) [255; 0; 1]] = Some [FBin (flagged false None true None) [255; 1]]) by (vm_compute; reflexivity).
  specialize (H X). discriminate H.
Qed.
Print Assumptions C145_unsync_refuted.
Theorem C145_length_refuted : ~ forall d fs, reread w24 no_flags ex_opts [FBin (flagged false None false (Some (lenN d))) d] = Some fs -> fs = [FBin (flagged false None false (Some (lenN d))) d].
Proof.
  intro H. specialize (H [1; 2; 3; 4; 5] [FBin (flagged false None false (Some 2130308)) [5]]).
  assert (X : reread w24 no_flags ex_opts [FBin (flagged false None false (Some (lenN [1; 2; 3; 4; 5]))) [1; 2; 3; 4; 5]] = Some [FBin (flagged false None false (Some 2130308)) [5]]) by (vm_compute; reflexivity).
  specialize (H X). discriminate H.
Qed.
Print Assumptions C145_length_refuted.
(** The content of a compressed frame is written as it is, so that reading takes four bytes off and decompresses the rest. *)
Theorem C145_compression_refuted : forall inflate, inflate [5] <> Some [1; 2; 3; 4; 5] ->
  exists h r, header_parse (match create_tag w24 no_flags [FBin (flagged true None false None) [1; 2; 3; 4; 5]] with Ok t => t | _ => [] end) = (Ok h, r) /\
  match parse_id3v2 inflate h ex_opts r with
  | Ok (t, _) => exists fl c, t_frames t = [FBin fl c] /\ inflate [5] = Some c /\ c <> [1; 2; 3; 4; 5]
  | Err _ => inflate [5] = None
  | Panic => False
  end.
Proof.
  intros inflate H. exists (mkHdr V4 no_flags 15 0), ($"XABC" ++ [0; 0; 0; 5; 0; 8; 1; 2; 3; 4; 5]). split. vm_compute. reflexivity.
  unfold parse_id3v2. cbn [h_size h_ext_size h_version h_flags tf_unsync no_flags andb is_v3 is_v4 negb]. rewrite andb_false_r.
  change (takeN (15 - 0) ($"XABC" ++ [0; 0; 0; 5; 0; 8; 1; 2; 3; 4; 5])) with ($"XABC" ++ [0; 0; 0; 5; 0; 8; 1; 2; 3; 4; 5]). cbv zeta.
  set (fuel := length _). assert (F : exists k, fuel = S k) by (exists 14%nat; reflexivity). destruct F as (k & F). rewrite F. clear F fuel.
  cbn [read_all]. unfold read_frame at 1.
  replace (if is_v2 V4 then _ else _) with (HOk (Valid ($"XABC")) (mkFF false false false None true None false None) 5 [1; 2; 3; 4; 5]) by (vm_compute; reflexivity).
  change (negb (fo_cover ex_opts) && _) with false. cbn [andb is_v4]. change (5 =? 0) with false. cbv zeta.
  replace (read_extras _ 5 _) with (Ok (E := ferr) (mkFF false false false None true None false (Some 2130308), 1, [5])) by (vm_compute; reflexivity).
  cbn [bind]. change (1 =? 0) with false. change (takeN 1 [5]) with [5]. cbn [ff_unsync ff_compression ff_encryption is_some].
  destruct (inflate [5]) as [c|]; cbn [from_opt bind]; auto.
  match goal with |- context [parse_content ?kd ?i ?f ?v ?m ?z] => change (parse_content kd i f v m z) with (parse_bin (mkFH i f) z) end.
  cbn [parse_bin content_frame bind]. unfold read_frame. change (dropN 1 [5]) with (@nil N).
  change (if is_v2 V4 then _ else _) with HEnd. cbn [bind t_frames]. eexists _, c. split; [reflexivity|]. split; [reflexivity|]. congruence.
Qed.
Print Assumptions C145_compression_refuted.
(** Encrypted data: the method byte is written behind the length instead of before it, and the size is four bytes short. *)
Theorem C145_encrypted_refuted : ~ forall d e fs, 0x80 < e < 256 -> d <> [] -> reread w24 no_flags ex_opts [FBin (flagged false (Some e) false (Some (lenN d))) d] = Some fs ->
  fs = [FBin (flagged false (Some e) false (Some (lenN d))) d].
Proof.
  intro H. specialize (H [1; 2; 3; 4; 5; 6; 7] 0x90 [FBin (flagged false (Some 0) false (Some 912)) [1; 2; 3]]).
  assert (X : reread w24 no_flags ex_opts [FBin (flagged false (Some 0x90) false (Some (lenN [1; 2; 3; 4; 5; 6; 7]))) [1; 2; 3; 4; 5; 6; 7]] = Some [FBin (flagged false (Some 0) false (Some 912)) [1; 2; 3]]).
  { vm_compute. reflexivity. }
  specialize (H ltac:(lia) ltac:(discriminate) X). discriminate H.
Qed.
Print Assumptions C145_encrypted_refuted.

(** ** C146: damaged frames *)
(** A frame with a name that is not one is skipped, unless the reading is strict. *)
Theorem C146_bad_name : forall inflate fuel v o acc name size fl content rest,
  (is_v4 v = true \/ is_v3 v = true) -> fo_mode o <> Strict -> lenN name = 4 -> nth 0 name 0 <> 0 -> nth 3 name 0 <> 0 -> lenN fl = 2 ->
  (forall s, utf8_decode name = Ok s -> frame_id_new s = None /\ frame_id_new (upgraded (upgrade_v3 s) s) = None) ->
  lenN content = size -> size < 2 ^ 28 ->
  forall z, (if is_v4 v then synch32 size = Ok z else size = z) ->
  read_all inflate (S fuel) v false o acc (name ++ be_enc 4 z ++ fl ++ content ++ rest) = read_all inflate fuel v false o acc rest.
Proof.
  intros inflate fuel v o acc name size fl content rest V M Ln N0 N3 Lf Bad Lc Hs z Z. cbn [read_all]. unfold read_frame.
  assert (V2 : is_v2 v = false) by (destruct v; auto; destruct V as [V|V]; discriminate V). rewrite V2.
  assert (Uz : (if is_v4 v then unsynch32 z else z) = size /\ z < 2 ^ 32).
  { destruct (is_v4 v).
    - assert (Hb : size < 2 ^ 32) by (change (2 ^ 32) with 4294967296; change (2 ^ 28) with 268435456 in Hs; lia). destruct (synch32_correct size Hb) as (_ & S2).
      destruct (S2 Hs) as (z' & E & (Sb & _) & _ & U). assert (z' = z) by congruence. subst z'. auto.
    - subst z. split; auto. change (2 ^ 32) with 4294967296. change (2 ^ 28) with 268435456 in Hs. lia. }
  destruct Uz as [Uz Bz].
  assert (P : parse_header (is_v4 v) (fo_implicit o) (name ++ be_enc 4 z ++ fl ++ content ++ rest) = HBad size (content ++ rest)).
  { unfold parse_header. replace (name ++ be_enc 4 z ++ fl ++ content ++ rest) with ((name ++ be_enc 4 z ++ fl) ++ content ++ rest) by (rewrite <- !app_assoc; reflexivity).
    rewrite read_exact_app by (rewrite !lenN_app, be_enc_len, Ln, Lf; reflexivity).
    destruct name as [|n0 [|n1 [|n2 [|n3 [|]]]]]; try (exfalso; vm_compute in Ln; discriminate Ln). 2: { unfold lenN in Ln. cbn [length] in Ln. lia. }
    cbn [nth] in N0, N3. change (nth 0 ([n0; n1; n2; n3] ++ be_enc 4 z ++ fl) 0) with n0. change (nth 3 ([n0; n1; n2; n3] ++ be_enc 4 z ++ fl) 0) with n3.
    replace (n0 =? 0) with false by lia. replace (n3 =? 0) with false by lia. cbn [andb]. cbv zeta.
    rewrite (dropN_app _ 4 [n0; n1; n2; n3]) by reflexivity. rewrite (takeN_app _ 4 (be_enc 4 z)) by apply be_enc_len. rewrite (takeN_app _ 4 [n0; n1; n2; n3]) by reflexivity.
    rewrite be_dec_enc by (change (2 ^ (8 * 4)) with (2 ^ 32); exact Bz). rewrite Uz.
    destruct (utf8_decode [n0; n1; n2; n3]) as [s| |]; auto. destruct (Bad s eq_refl) as [B1 B2]. destruct (is_v4 v); cbn [negb andb]; [rewrite B1|destruct (fo_implicit o); [rewrite B2|rewrite B1]]; reflexivity. }
  rewrite P. assert (is_strict (fo_mode o) = false) as -> by (destruct (fo_mode o); auto; congruence). cbn [bind]. rewrite dropN_app by exact Lc. reflexivity.
Qed.
Print Assumptions C146_bad_name.
(** Any other damage makes the whole tag unreadable, even in the most lenient mode: here an unknown text encoding. *)
Theorem C146_damaged_refuted : forall inflate m c i n b rest, 3 < b ->
  exists e, parse_id3v2 inflate (mkHdr V4 no_flags (n + 12) 0) (mkFO m c i) ($"TIT2" ++ [0; 0; 0; 2; 0; 0; b; 65] ++ rest) = Err e.
Proof.
  intros inflate m c i n b rest Hb. unfold parse_id3v2. cbn [h_size h_ext_size h_version h_flags tf_unsync no_flags andb is_v3 is_v4 negb]. rewrite N.sub_0_r.
  rewrite app_assoc, takeN_app_ge by (rewrite lenN_app; change (lenN ($"TIT2")) with 4; unfold lenN; cbn [length]; lia).
  match goal with |- context [takeN (n + 12 - ?x) rest] => set (tail := takeN (n + 12 - x) rest) end. rewrite <- app_assoc. cbv zeta.
  match goal with |- context [read_all _ (S ?k)] => set (fuel := k) end. cbn [read_all]. unfold read_frame. cbn [is_v2 is_v4 fo_implicit fo_cover fo_mode].
  replace (parse_header true i ($"TIT2" ++ [0; 0; 0; 2; 0; 0; b; 65] ++ tail)) with (HOk (Valid ($"TIT2")) ff_default 2 ([b; 65] ++ tail)).
  2: { unfold parse_header. change ($"TIT2" ++ [0; 0; 0; 2; 0; 0; b; 65] ++ tail) with (($"TIT2" ++ [0; 0; 0; 2; 0; 0]) ++ [b; 65] ++ tail).
       rewrite read_exact_app by reflexivity. vm_compute. reflexivity. }
  change (id_eqb (Valid ($"TIT2")) (Valid ($"APIC"))) with false. rewrite andb_false_r. cbn [andb]. change (2 =? 0) with false. cbv zeta.
  change (read_extras ff_default 2 ([b; 65] ++ tail)) with (Ok (E := ferr) (ff_default, 2, [b; 65] ++ tail)). cbn [bind]. change (2 =? 0) with false.
  rewrite takeN_app by reflexivity. cbn [ff_unsync ff_default ff_compression ff_encryption is_some].
  match goal with |- context [parse_content ?kd ?id ?f ?v ?md ?z] => change (parse_content kd id f v md z) with (parse_text (mkFH id f) v z) end.
  unfold parse_text. cbn [read_u8]. unfold verify_encoding. cbn [is_v2 andb]. replace (enc_of_u8 b) with (@None encoding).
  2: { unfold enc_of_u8. destruct b as [|[[p|p|]|[p|p|]|]]; auto; lia. }
  cbn [from_opt bind content_frame]. eexists. reflexivity.
Qed.
Print Assumptions C146_damaged_refuted.
Example C146_ex :
  match parse_id3v2 (fun _ => None) (mkHdr V4 no_flags 26 0) (mkFO Relaxed true true) ($"a?b!" ++ [0; 0; 0; 4; 0; 0; 1; 2; 3; 4] ++ $"TIT2" ++ [0; 0; 0; 2; 0; 0; 0; 65]) with
  | Ok (t, _) => t_frames t = [FText (head ($"TIT2")) Latin1 ($"A")] | _ => False end.
Proof. vm_compute. reflexivity. Qed.

(** ** C150: what was read can be saved *)
(** A tag with an ownership frame or event timing codes can never be saved. *)
Theorem C150_unwritable_refuted : forall w tf l f, In f l -> is_valid_id (f_id f) = true ->
  (exists e p d s h, f = FOwne h e p d s) \/ (exists h t ev, f = FEtco h t ev) -> in_names (f_name f) V4_ONLY = false ->
  forall tag, create_tag w tf l <> Ok tag.
Proof.
  intros w tf l f I Vd K V4o tag E. unfold create_tag in E. destruct l as [|f0 l0]; [destruct I|]. remember (f0 :: l0) as l. clear Heql f0 l0.
  destruct (write_frames w l) as [fb| |] eqn:W; cbn [bind] in E; try discriminate E. clear E.
  assert (VF : verify_frame f = false) by (destruct K as [(? & ? & ? & ? & ? & ->)|(? & ? & ? & ->)]; reflexivity).
  unfold write_frames, items in W. destruct (w_v23 w).
  - revert I W. generalize false (@None (encoding * str)) fb. induction l as [|g l IH]; intros b ip fb' I W; [destruct I|]. cbn [items23] in W. destruct I as [-> |I].
    + rewrite Vd, V4o, VF in W. discriminate W.
    + destruct (negb (is_valid_id (f_id g))); [eapply IH; eauto|]. destruct (in_names (f_name g) V4_ONLY); [eapply IH; eauto|]. destruct (negb (verify_frame g)); [discriminate W|].
      destruct (conv23 g).
      * eapply IH; eauto.
      * destruct (write_one _ w b g) as [[x b']| |]; cbn [bind] in W; try discriminate W. destruct (items23 _ w b' ip l) as [y| |] eqn:Y; cbn [bind] in W; try discriminate W. eapply IH; eauto.
      * destruct (new_frames w _) as [x| |]; cbn [bind] in W; try discriminate W. destruct (items23 _ w b ip l) as [y| |] eqn:Y; cbn [bind] in W; try discriminate W. eapply IH; eauto.
      * destruct ip as [[e' v']|]; eapply IH; eauto.
  - revert I W. generalize false fb. induction l as [|g l IH]; intros b fb' I W; [destruct I|]. cbn [items24] in W. destruct I as [-> |I].
    + rewrite Vd, VF in W. discriminate W.
    + destruct (negb (is_valid_id (f_id g))); [eapply IH; eauto|]. destruct (negb (verify_frame g)); [discriminate W|].
      destruct (write_one _ w b g) as [[x b']| |]; cbn [bind] in W; try discriminate W. destruct (items24 _ w b' l) as [y| |] eqn:Y; cbn [bind] in W; try discriminate W. eapply IH; eauto.
Qed.
Print Assumptions C150_unwritable_refuted.
(** Such a tag is read without complaint. The same holds for comments whose language is not three letters. *)
Definition owne_tag : bytes := $"OWNE" ++ [0; 0; 0; 14; 0; 0; 0] ++ $"1" ++ [0] ++ $"20240101" ++ $"abc".
Definition lang_tag : bytes := $"COMM" ++ [0; 0; 0; 6; 0; 0; 0; 0; 0; 0; 0; 65].
Theorem C150_read_refuted : ~ forall h r t rest, parse_id3v2 (fun _ => None) h ex_opts r = Ok (t, rest) -> exists tag, create_tag w24 (t_flags t) (t_frames t) = Ok tag.
Proof.
  intro H. destruct (H (mkHdr V4 no_flags 24 0) owne_tag (mkT V4 no_flags [FOwne (head ($"OWNE")) Latin1 ($"1") ($"20240101") ($"abc")]) []) as (tag & E).
  vm_compute. reflexivity. vm_compute in E. discriminate E.
Qed.
Print Assumptions C150_read_refuted.
Theorem C150_language_refuted : ~ forall h r t rest, parse_id3v2 (fun _ => None) h ex_opts r = Ok (t, rest) -> (forall f, In f (t_frames t) -> kind_of f = KComment) ->
  exists tag, create_tag w24 (t_flags t) (t_frames t) = Ok tag.
Proof.
  intro H. destruct (H (mkHdr V4 no_flags 16 0) lang_tag (mkT V4 no_flags [FComment (head ($"COMM")) Latin1 [0; 0; 0] [] ($"A")]) []) as (tag & E).
  vm_compute. reflexivity. intros f [<- |[]]. reflexivity. vm_compute in E. discriminate E.
Qed.
Print Assumptions C150_language_refuted.
