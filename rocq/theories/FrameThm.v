(** ID3v2 frames and tags, written and read back: C135 - C140. *)
From Verif Require Import BaseLemmas SynchProof TextProof Id3v2HeaderProof Id3v2HeaderThm FrameProof1 FrameProof2.

(** ** C135: frame ids *)
Definition name_char (c : N) : Prop := 65 <= c <= 90 \/ 48 <= c <= 57.
Theorem C135_ids : forall s i,
  frame_id_new s = Some i <->
  Forall name_char s /\ (length s = 4%nat /\ i = Valid s \/ length s = 3%nat /\ i = Outdated s).
Proof.
  intros s i. unfold frame_id_new.
  assert (X : forallb (fun c => is_upper c || is_digit c) s = true <-> Forall name_char s).
  { rewrite forallb_forall, Forall_forall. unfold name_char, is_upper, is_digit. split; intros H x I; specialize (H x I); lia. }
  destruct (forallb _ s) eqn:E.
  - assert (L : forall k, (lenN s =? N.of_nat k) = true <-> length s = k) by (intro; unfold lenN; split; lia).
    pose proof (L 3%nat) as L3. pose proof (L 4%nat) as L4. change (N.of_nat 3) with 3 in L3. change (N.of_nat 4) with 4 in L4.
    destruct (lenN s =? 3); [|destruct (lenN s =? 4)].
    + split. intro H. injection H as <-. split. tauto. right. tauto.
      intros (_ & [[H ->]|[H ->]]); auto. exfalso. assert (length s = 3%nat) by tauto. congruence.
    + split. intro H. injection H as <-. split. tauto. left. tauto.
      intros (_ & [[H ->]|[H ->]]); auto. exfalso. assert (length s = 4%nat) by tauto. congruence.
    + split. discriminate. intros (_ & [[H ->]|[H ->]]); exfalso; [apply L4 in H|apply L3 in H]; discriminate.
  - split. discriminate. intros (H & _). apply X in H. congruence.
Qed.
Print Assumptions C135_ids.
Fixpoint nodupb (l : list str) : bool := match l with [] => true | x :: l' => negb (existsb (list_eqb x) l') && nodupb l' end.
Lemma nodupb_sound : forall l, nodupb l = true -> NoDup l.
Proof.
  induction l; intros H; constructor; cbn [nodupb] in H; apply andb_true_iff in H as [H1 H2]; auto.
  intro I. apply negb_true_iff in H1. rewrite (proj2 (existsb_exists _ _)) in H1. discriminate. exists a. split; auto. apply list_eqb_refl.
Qed.
(** Every ID3v2.2 id that is known becomes one ID3v2.4 id, and likewise for ID3v2.3. *)
Theorem C135_upgrades :
  NoDup (map fst V2_KEYS) /\ NoDup (map fst V3_KEYS) /\
  (forall k v, upgrade_v2 k = Some v -> length k = 3%nat /\ frame_id_new v = Some (Valid v)) /\
  (forall k v, upgrade_v3 k = Some v -> length k = 4%nat /\ frame_id_new v = Some (Valid v)).
Proof.
  assert (A : forall n l k v, forallb (fun p => Nat.eqb (length (fst p)) n && yes (list_eq_dec N.eq_dec (id_str (match frame_id_new (snd p) with Some i => i | None => Outdated [] end)) (snd p)) && match frame_id_new (snd p) with Some (Valid _) => true | _ => false end) l = true ->
              assoc k l = Some v -> length k = n /\ frame_id_new v = Some (Valid v)).
  { intros n l k v F E. unfold assoc in E. destruct (find (fun p => list_eqb (fst p) k) l) as [[a b]|] eqn:X; [|discriminate]. injection E as ->.
    apply find_some in X as (I & Q). apply list_eqb_eq in Q. cbn [fst] in Q. subst a. rewrite forallb_forall in F. specialize (F _ I). cbn [fst snd] in F.
    rewrite !andb_true_iff in F. destruct F as ((F1 & F2) & F3). apply PeanoNat.Nat.eqb_eq in F1. split; auto.
    destruct (frame_id_new v) as [[|]|]; try discriminate. apply yes_true in F2. cbn [id_str] in F2. congruence. }
  split; [|split; [|split]].
  - apply nodupb_sound. vm_compute. reflexivity.
  - apply nodupb_sound. vm_compute. reflexivity.
  - intros k v. apply A. vm_compute. reflexivity.
  - intros k v. apply A. vm_compute. reflexivity.
Qed.
Print Assumptions C135_upgrades.
Example C135_ex : frame_id_new ($"TIT2") = Some (Valid ($"TIT2")) /\ frame_id_new ($"TT2") = Some (Outdated ($"TT2")) /\
  frame_id_new ($"tit2") = None /\ frame_id_new ($"TITLE") = None /\ upgrade_v2 ($"TT2") = Some ($"TIT2") /\ upgrade_v3 ($"TYER") = Some ($"TDRC").
Proof. vm_compute. auto 10. Qed.

(** ** C136: the flags of a frame. Bits as in ID3v2.4.0-structure 4.1 and ID3v2.3.0 3.3.1. *)
Definition present {A} (o : option A) : bool := match o with Some _ => true | None => false end.
Definition bit (b : bool) (i : N) : N := if b then 2 ^ i else 0.
Lemma flag_testbit : forall v i, flag v (2 ^ i) = N.testbit v i.
Proof.
  intros. unfold flag. destruct (N.eqb_spec (N.land v (2 ^ i)) (2 ^ i)) as [E|E].
  - apply (f_equal (fun x => N.testbit x i)) in E. rewrite N.land_spec, N.pow2_bits_true, andb_true_r in E. auto.
  - destruct (N.testbit v i) eqn:T; auto. exfalso. apply E. apply N.bits_inj. intro j. rewrite N.land_spec.
    destruct (N.eq_dec j i) as [->|H]. now rewrite T, N.pow2_bits_true. rewrite N.pow2_bits_false by auto. apply andb_false_r.
Qed.
Theorem C136_written : forall f,
  flags24 f = bit (ff_tag_alter f) 14 + bit (ff_file_alter f) 13 + bit (ff_read_only f) 12 + bit (present (ff_group f)) 6 +
    bit (ff_compression f) 3 + bit (present (ff_encryption f)) 2 + bit (ff_unsync f) 1 + bit (present (ff_length f)) 0 /\
  flags23 f = bit (ff_tag_alter f) 15 + bit (ff_file_alter f) 14 + bit (ff_read_only f) 13 + bit (ff_compression f) 7 +
    bit (present (ff_encryption f)) 6 + bit (present (ff_group f)) 5.
Proof. intros [a b c [g|] d [e|] u [l|]]; destruct a, b, c, d, u; vm_compute; auto. Qed.
Print Assumptions C136_written.
Theorem C136_read : forall v,
  (let f := parse_flags24 v in
   ff_tag_alter f = N.testbit v 14 /\ ff_file_alter f = N.testbit v 13 /\ ff_read_only f = N.testbit v 12 /\
   present (ff_group f) = N.testbit v 6 /\ ff_compression f = N.testbit v 3 /\ present (ff_encryption f) = N.testbit v 2 /\
   ff_unsync f = N.testbit v 1 /\ present (ff_length f) = N.testbit v 0) /\
  (let f := parse_flags23 v in
   ff_tag_alter f = N.testbit v 15 /\ ff_file_alter f = N.testbit v 14 /\ ff_read_only f = N.testbit v 13 /\
   ff_compression f = N.testbit v 7 /\ present (ff_encryption f) = N.testbit v 6 /\ present (ff_group f) = N.testbit v 5 /\
   ff_unsync f = false /\ ff_length f = None).
Proof.
  intro v. cbv zeta. unfold parse_flags24, parse_flags23.
  cbn [ff_tag_alter ff_file_alter ff_read_only ff_group ff_compression ff_encryption ff_unsync ff_length].
  assert (X : forall b n, present (then_some b n) = b) by (intros [] n; reflexivity). rewrite !X.
  rewrite <- !flag_testbit. split; repeat split.
Qed.
Print Assumptions C136_read.
Example C136_ex : flags24 (mkFF true false true (Some 7) false None false None) = 0x5040 /\
  parse_flags24 0x5040 = mkFF true false true (Some 0) false None false None.
Proof. vm_compute. auto. Qed.

(** ** C137: the header of a frame *)
Theorem C137_header : forall w implicit s fl n h rest,
  valid_name s -> (w_v23 w = true -> implicit = true -> s <> $"TORY" /\ s <> $"TYER" /\ s <> $"IPLS") ->
  n < 2 ^ 32 -> frame_header_bytes w s n fl = Ok h ->
  lenN h = 10 /\
  exists fl', parse_header (negb (w_v23 w)) implicit (h ++ rest) = HOk (Valid s) fl' n rest /\
    fl' = (if w_v23 w then parse_flags23 (flags23 fl) else parse_flags24 (flags24 fl)).
Proof.
  intros w im s fl n h rest Hs Ho Hn E. unfold frame_header_bytes in E.
  assert (exists z, h = utf8_enc s ++ be_enc 4 z ++ be_enc 2 (flag_bytes w fl) /\ z < 2 ^ 32 /\ (if is_v4 (wv w) then unsynch32 z else z) = n) as (z & -> & Hz & Sz).
  { unfold flag_bytes, wv in *. destruct (w_v23 w); cbn [bind is_v4] in *. exists n. split; [congruence|auto].
    destruct (synch32_correct n Hn) as (S1 & S2). destruct (N.ltb_spec n (2 ^ 28)).
    + destruct (S2 H) as (z & Ez & (Sb & _) & _ & Uz). rewrite Ez in E. cbn [as_ferr bind] in E. exists z. split; [congruence|auto].
    + apply S1 in H. rewrite H in E. discriminate. }
  split. { rewrite !lenN_app, !be_enc_len, utf8_ascii' by now apply name_ascii. destruct Hs as [Hs _]. unfold lenN. rewrite Hs. reflexivity. }
  eexists. replace (negb (w_v23 w)) with (is_v4 (wv w)) by (unfold wv; destruct (w_v23 w); reflexivity).
  rewrite header_rt; auto.
  2: { intros A B [C|[C|C]]; destruct (Ho A B) as (D1 & D2 & D3); auto. }
  rewrite Sz. split; [reflexivity|]. destruct (flags_rt w fl) as (_ & <-). unfold flag_bytes. destruct (w_v23 w); reflexivity.
Qed.
Print Assumptions C137_header.
Example C137_ex : frame_header_bytes (mkW false false false None) ($"TIT2") 200 ff_default = Ok ($"TIT2" ++ [0; 0; 1; 72; 0; 0]) /\
  frame_header_bytes (mkW true false false None) ($"TIT2") 200 ff_default = Ok ($"TIT2" ++ [0; 0; 0; 200; 0; 0]) /\
  parse_header true true ($"TIT2" ++ [0; 0; 1; 72; 0; 0]) = HOk (Valid ($"TIT2")) ff_default 200 [] /\
  parse_header false true ($"TYER" ++ [0; 0; 1; 72; 0; 0]) = HOk (Valid ($"TDRC")) ff_default 328 [].
Proof. vm_compute. auto. Qed.

(** ** C138: the content of a frame *)
Theorem C138_content : forall w v kids m f s b,
  v <> V2 -> f_id f = Valid s -> kind_of_name s = kind_of f -> kind_of f <> KChap -> kind_of f <> KCtoc ->
  content_ok (w_v23 w) m f -> frame_bytes w f = Ok b ->
  parse_content kids (f_id f) (f_flags f) v m b = Ok (Some (restored (w_v23 w) f), []).
Proof.
  intros w v kids m f s b NV Hi Hk K1 K2 C E.
  assert (L : leaf f = true) by (destruct f; auto; cbn [kind_of] in *; congruence).
  assert (E' : leaf_bytes w f = Ok b) by (destruct f; try discriminate L; exact E).
  destruct (rt_leaf w v kids m f s) as [X|(b' & X & Y)]; auto; congruence.
Qed.
Print Assumptions C138_content.
(** Such contents can be written, unless a picture is too large. *)
Theorem C138_written : forall w m f,
  (exists s, f_id f = Valid s /\ kind_of_name s = kind_of f) -> kind_of f <> KChap -> kind_of f <> KCtoc -> content_ok (w_v23 w) m f ->
  (exists b, frame_bytes w f = Ok b /\ b <> []) \/ frame_bytes w f = Err ETooMuch /\ kind_of f = KPicture.
Proof.
  intros w m f (s & Hi & Hk) K1 K2 C.
  assert (L : leaf f = true) by (destruct f; auto; cbn [kind_of] in *; congruence).
  assert (E' : frame_bytes w f = leaf_bytes w f) by (destruct f; try discriminate L; reflexivity). rewrite E'.
  destruct (rt_leaf w V4 (fun _ => Panic) m f s) as [X|(b' & X & Y)]; auto; try discriminate.
  - right. split; auto. destruct f; try reflexivity; try discriminate L; cbn [leaf_bytes] in X; exfalso;
    unfold lang_bytes, text_bytes, user_bytes, url_bytes, popm_bytes, key_value_bytes, rva2_bytes, owner_bytes,
      owne_bytes, etco_bytes, time_bytes, enc_text in X; try discriminate X.
    all: repeat match type of X with
      | (if ?c then _ else _) = _ => destruct c; try discriminate X
      | bind (as_ferr ?x ?e) _ = _ => destruct x; cbn [as_ferr bind] in X; try discriminate X
      | as_ferr ?x ?e = _ => destruct x; cbn [as_ferr bind] in X; try discriminate X
      end.
    + destruct (pairs_bytes w (w_enc w e) pairs) as [z| |] eqn:Z; cbn [bind] in X; try discriminate X. injection X as ->.
      clear -Z. revert Z. induction pairs as [|[k x] l IH]; cbn [pairs_bytes]; intros. discriminate. unfold enc_text in Z.
      destruct (encode _ _ k _ _); cbn [as_ferr bind] in Z; try discriminate Z. destruct (encode _ _ x _ _); cbn [as_ferr bind] in Z; try discriminate Z.
      destruct (pairs_bytes w (w_enc w e) l) as [z| |]; cbn [bind] in Z; try discriminate Z. apply IH. congruence.
    + destruct (concat_res ch_bytes channels) as [z| |] eqn:Z; cbn [bind] in X; try discriminate X. injection X as ->.
      clear -Z. revert Z. induction channels as [|x l IH]; cbn [concat_res]; intros. discriminate. unfold ch_bytes in Z at 1.
      destruct (ch_peak x); [destruct (_ <? _); [destruct (_ <? _)|]|]; cbn [bind] in Z; try discriminate Z;
      destruct (concat_res ch_bytes l) as [z| |]; cbn [bind] in Z; try discriminate Z; apply IH; congruence.
  - left. exists b'. split; auto. eapply leaf_nonempty; eauto.
Qed.
Print Assumptions C138_written.
Definition w24 := mkW false false false None.
Definition w23 := mkW true false false None.
Definition head (id : str) : frame_header := mkFH (Valid id) ff_default.
Definition c_comment := FComment (head ($"COMM")) UTF16 ($"eng") ($"d") ($"text").
Definition c_popm := FPopm (head ($"POPM")) ($"a@b") 255 (2 ^ 33).
Definition c_rva2 := FRva2 (head ($"RVA2")) ($"id") [mkCh 1 65535 9 (Some [1; 2]); mkCh 0 3 0 None].
Definition c_people := FKeyValue (head ($"TIPL")) UTF16 [($"producer", $"A"); ($"mix", [])].
Lemma all_b : forall (p : N -> bool) (P : N -> Prop) s, (forall c, p c = true -> P c) -> forallb p s = true -> Forall P s.
Proof. intros. rewrite forallb_forall in H0. apply Forall_forall. auto. Qed.
Lemma plain : forall e s, forallb (fun c => (0 <? c) && (c <? 128)) s = true -> terminated_ok e s.
Proof.
  intros e s H. assert (F : Forall (fun c => 0 < c < 128) s) by (eapply all_b; [|exact H]; cbv beta; intros; lia).
  split. apply ascii_ok. eapply Forall_impl; [|exact F]; cbv beta; intros; lia.
  split. eapply Forall_impl; [|exact F]; cbv beta; intros; lia. destruct e; auto; (eapply Forall_impl; [|exact F]); cbv beta; intros; lia.
Qed.
Lemma plain_text : forall e s, forallb (fun c => c <? 128) s = true -> last s 1 <> 0 -> text_ok e s.
Proof.
  intros e s H L. assert (F : Forall (fun c => c < 128) s) by (eapply all_b; [|exact H]; cbv beta; intros; lia).
  split. now apply ascii_ok. split; auto. destruct e; auto; (eapply Forall_impl; [|exact F]); cbv beta; intros; lia.
Qed.
Example C138_ex :
  frame_bytes w24 c_comment = Ok (1 :: $"eng" ++ [255; 254; 100; 0; 0; 0; 255; 254; 116; 0; 101; 0; 120; 0; 116; 0]) /\
  content_ok true Strict c_comment /\
  frame_bytes w24 c_popm = Ok ($"a@b" ++ [0; 255; 2; 0; 0; 0; 0]) /\ content_ok false Strict c_popm /\
  frame_bytes w24 c_rva2 = Ok ($"id" ++ [0; 1; 255; 255; 9; 1; 2; 0; 0; 3; 0]) /\ content_ok false Strict c_rva2 /\
  content_ok false Strict c_people /\ content_ok true Strict (FText (head ($"TPE1")) UTF8 ($"a" ++ 0 :: $"b")).
Proof.
  split; [reflexivity|]. split. { split; [reflexivity|]. split. apply (all_b is_alpha); [|reflexivity]. unfold is_alpha, is_upper, letter. intros; lia. split; now apply plain. }
  split; [reflexivity|]. split. { split. now apply plain. split; reflexivity. }
  split; [reflexivity|]. split. { split. now apply plain. split. repeat constructor; cbn; lia. repeat constructor; cbn; intuition discriminate. }
  split. { split. discriminate. repeat (apply Forall_cons; [split; now apply plain|]); constructor. }
  now apply plain_text.
Qed.

(** ** C139, C140: whole tags. The flags of the tag are those that describe it as it is written: no unsynchronisation, no extended
    header. *)
Definition tag_flags_ok (v23 : bool) (f : tag_flags) : Prop :=
  tf_unsync f = false /\ tf_crc f = false /\ tf_restrictions f = None /\ (v23 = true -> tf_experimental f = false).
Definition footer (w : wopts) (f : tag_flags) (tag : bytes) : bytes := if tf_footer f then $"3DI" ++ takeN 7 (dropN 3 tag) else [].
Lemma no_tdrc : forall v23 m l, Forall (frame_ok v23 m) l -> v23 = true -> construct_tdrc (map (restored v23) l) = map (restored v23) l.
Proof.
  intros v23 m l F V. unfold construct_tdrc. unfold fl_removed. rewrite filter_none; auto.
  apply Forall_forall. intros f I. apply in_map_iff in I as (g & <- & I). rewrite Forall_forall in F. specialize (F g I).
  destruct F as [f ((s & A & B & C & D) & _) _ _ _]. unfold f_id in *. rewrite restored_header, A.
  destruct (id_eqb (Valid s) TDRC) eqn:E; auto. apply id_eqb_eq in E. exfalso. apply (D V). injection E as ->. unfold RENAMED. cbn [In]. tauto.
Qed.
Lemma Ok_inj : forall E A (a b : A), @Ok E A a = Ok b -> a = b.
Proof. intros. congruence. Qed.
Lemma tag_gen : forall w inflate o f l tag rest raw,
  tag_flags_ok (w_v23 w) f -> l <> [] ->
  (forall fb tail fuel, write_frames w l = Ok fb -> lenN fb < 2 ^ 32 -> hd 0 tail = 0 -> (length (fb ++ tail) < fuel)%nat ->
     read_all inflate fuel (wv w) false o [] (fb ++ tail) = Ok (raw, [])) ->
  create_tag w f l = Ok tag -> lenN tag < 2 ^ 32 ->
  exists h body, header_parse (tag ++ rest) = (Ok h, body) /\ 10 + h_size h + (if tf_footer f then 10 else 0) = lenN tag /\
    parse_id3v2 inflate h o body = Ok (mkT (wv w) f (if fo_implicit o && w_v23 w then construct_tdrc raw else raw), footer w f tag ++ rest).
Proof.
  intros w inflate o f l tag rest raw (Fu & Fc & Fr & Fx) NE RD E Hl.
  unfold create_tag in E. destruct l as [|f0 l0]; [congruence|]. set (l := f0 :: l0) in *.
  destruct (write_frames w l) as [fb| |] eqn:W; cbn [bind] in E; try discriminate E.
  set (padding := if tf_footer f then 0 else match w_padding w with Some n => n | None => 0 end) in *.
  assert (X0 : ext_len f = 0) by (unfold ext_len, has_restr; rewrite Fc, Fr; reflexivity).
  assert (X1 : forall c, ext_header f c = []) by (intro; unfold ext_header, has_restr; rewrite Fc, Fr; reflexivity).
  rewrite X0, Fc, N.add_0_l in E. cbn [andb] in E.
  set (len := (lenN fb + padding) mod 2 ^ 32) in *.
  assert (Hlen : len < 2 ^ 32) by (apply N.mod_lt; discriminate).
  destruct (N.ltb_spec U32_MAX len); [unfold U32_MAX in *; change (2 ^ 32) with 4294967296 in *; lia|].
  destruct (synch32_correct len Hlen) as (S1 & S2).
  destruct (N.ltb_spec len (2 ^ 28)) as [Hs|Hs]; [|apply S1 in Hs; rewrite Hs in E; discriminate E].
  destruct (S2 Hs) as (z & Ez & (Sb & _) & _ & Uz). rewrite Ez in E. cbn [as_ferr bind] in E. cbv zeta in E.
  rewrite !X1 in E. cbn [andb] in E. change (@app N [] fb) with fb in E. apply Ok_inj in E.
  set (info := [if w_v23 w then 3 else 4; 0; if w_v23 w then as_id3v23_byte f else as_id3v24_byte f] ++ be_enc 4 z) in *.
  set (hdr := hdr_bytes (if w_v23 w then 3 else 4) 0 (if w_v23 w then as_id3v23_byte f else as_id3v24_byte f) z).
  set (foot := if tf_footer f then $"3DI" ++ takeN 7 (dropN 3 hdr) else []).
  assert (Et : tag = hdr ++ fb ++ repeat 0 (N.to_nat padding) ++ foot).
  { rewrite <- E. change hdr with ($"ID3" ++ info). subst foot padding. destruct (tf_footer f).
    - change (repeat 0 (N.to_nat 0)) with (@nil N). change (takeN 7 (dropN 3 hdr)) with info. rewrite !app_assoc, ?app_nil_r. reflexivity.
    - rewrite app_nil_r, !app_assoc. reflexivity. }
  assert (Lh : lenN hdr = 10) by reflexivity.
  assert (Lf : lenN foot = if tf_footer f then 10 else 0).
  { subst foot. destruct (tf_footer f); auto. }
  assert (Ltag : lenN tag = 10 + (lenN fb + padding) + lenN foot).
  { rewrite Et, !lenN_app, lenN_repeat, Lh. lia. }
  assert (Elen : len = lenN fb + padding) by (apply N.mod_small; lia).
  exists (mkHdr (wv w) f len 0). eexists.
  assert (HP : forall r, header_parse (hdr ++ r) = (Ok (mkHdr (wv w) f len 0), r)).
  { intro r. subst hdr. unfold wv. destruct f as [u x ft c r']. cbn [tf_unsync tf_crc tf_restrictions tf_experimental] in *. subst. destruct (w_v23 w).
    - rewrite C33_v23_flags_partial by (auto; apply Fx; auto). cbn [tf_footer]. now rewrite Uz, Fx.
    - rewrite C33_v24_flags by auto. cbn [tf_unsync tf_experimental tf_footer]. now rewrite Uz. }
  split. { rewrite Et, <- !app_assoc. apply HP. }
  cbn [h_size]. split. lia.
  unfold parse_id3v2. cbn [h_size h_ext_size h_version h_flags]. rewrite N.sub_0_r, Fu. cbn [andb].
  rewrite !app_assoc, <- (app_assoc _ foot), Elen. 
  assert (Lb : lenN (fb ++ repeat 0 (N.to_nat padding)) = lenN fb + padding) by (rewrite lenN_app, lenN_repeat; lia).
  rewrite takeN_app, dropN_app by exact Lb.
  rewrite (RD fb); auto; try lia.
  - cbn [bind]. replace (footer w f tag) with foot.
    2: { unfold footer, foot. destruct (tf_footer f); auto. f_equal. rewrite Et. change hdr with ($"ID3" ++ info). rewrite <- app_assoc, !dropN_app by reflexivity. rewrite takeN_app by reflexivity. reflexivity. }
    unfold wv. destruct (w_v23 w); reflexivity.
  - destruct (N.to_nat padding); reflexivity.
Qed.
Lemma tag_rt : forall w inflate o f l tag rest,
  fo_cover o = true -> tag_flags_ok (w_v23 w) f -> l <> [] -> Forall (frame_ok (w_v23 w) (fo_mode o)) l -> list_ok (w_v23 w) l ->
  create_tag w f l = Ok tag -> lenN tag < 2 ^ 32 ->
  exists h body, header_parse (tag ++ rest) = (Ok h, body) /\ 10 + h_size h + (if tf_footer f then 10 else 0) = lenN tag /\
    parse_id3v2 inflate h o body = Ok (mkT (wv w) f (map (restored (w_v23 w)) l), footer w f tag ++ rest).
Proof.
  intros w inflate o f l tag rest Hc Hf NE F L E Hl.
  destruct (tag_gen w inflate o f l tag rest (map (restored (w_v23 w)) l)) as (h & body & A & B & C); auto.
  - intros. now apply frames_rt.
  - exists h, body. split; auto. split; auto. rewrite C. destruct (w_v23 w) eqn:V.
    + rewrite andb_true_r. destruct (fo_implicit o); auto. rewrite (no_tdrc true (fo_mode o)); auto.
    + now rewrite andb_false_r.
Qed.
Lemma restored_same : forall f, restored false f = f.
Proof.
  apply frame_rect'. intros f IH. destruct f; cbn [restored FrameProof2.children] in *; auto.
  - f_equal. rewrite <- (map_id children) at 2. apply map_ext_in. rewrite Forall_forall in IH. auto.
  - f_equal. rewrite <- (map_id children) at 2. apply map_ext_in. rewrite Forall_forall in IH. auto.
Qed.
(** An ID3v2.4 tag is read back as it was: all frames with all their fields, in order, and the reader stops at the end of the tag
    (before the footer, if there is one), whatever padding was asked for and whatever follows. *)
Theorem C139_tag : forall w inflate o f l tag rest,
  w_v23 w = false -> fo_cover o = true -> tag_flags_ok false f -> l <> [] ->
  Forall (frame_ok false (fo_mode o)) l -> list_ok false l -> create_tag w f l = Ok tag -> lenN tag < 2 ^ 32 ->
  exists h body, header_parse (tag ++ rest) = (Ok h, body) /\ 10 + h_size h + (if tf_footer f then 10 else 0) = lenN tag /\
    parse_id3v2 inflate h o body = Ok (mkT V4 f l, footer w f tag ++ rest).
Proof.
  intros w inflate o f l tag rest V Hc Hf NE F L E Hl. rewrite <- V in Hf, F, L.
  destruct (tag_rt w inflate o f l tag rest) as (h & body & A & B & C); auto.
  exists h, body. split; auto. split; auto. rewrite C. unfold wv. rewrite !V. do 3 f_equal.
  rewrite <- (map_id l) at 2. apply map_ext. apply restored_same.
Qed.
Print Assumptions C139_tag.
(** An ID3v2.3 tag: the frames that version has come back, texts in UTF-16 unless they were Latin-1. *)
Theorem C140_tag : forall w inflate o f l tag rest,
  w_v23 w = true -> fo_cover o = true -> tag_flags_ok true f -> l <> [] ->
  Forall (frame_ok true (fo_mode o)) l -> list_ok true l -> create_tag w f l = Ok tag -> lenN tag < 2 ^ 32 ->
  exists h body, header_parse (tag ++ rest) = (Ok h, body) /\ 10 + h_size h + (if tf_footer f then 10 else 0) = lenN tag /\
    parse_id3v2 inflate h o body = Ok (mkT V3 f (map (restored true) l), footer w f tag ++ rest).
Proof.
  intros w inflate o f l tag rest V Hc Hf NE F L E Hl. rewrite <- V in Hf, F, L.
  destruct (tag_rt w inflate o f l tag rest) as (h & body & A & B & C); auto.
  exists h, body. split; auto. split; auto. rewrite C. unfold wv. rewrite !V. reflexivity.
Qed.
Print Assumptions C140_tag.

(** Writing such a list of frames can only fail because something is too large; a panic takes a frame of 4 GiB. *)
Inductive within (x : frame) : list frame -> Prop :=
| within_here : forall l, In x l -> within x l
| within_deep : forall f l, In f l -> within x (children f) -> within x l.
Definition huge (w : wopts) (l : list frame) : Prop :=
  exists f v, within f l /\ frame_bytes w f = Ok v /\ 2 ^ 32 <= lenN v + 1.
Definition too_large {A} (P : Prop) (r : res ferr A) : Prop :=
  match r with Ok _ => True | Err e => e = ETooMuch \/ e = ESynch | Panic => P end.
Lemma name_kind : forall s, (exists n, In (s, n) KINDS /\ kind_of_name s = n) \/
  kind_of_name s = match s with 84 :: _ => KText | 87 :: _ => KUrl | _ => KBin end.
Proof.
  intro s. unfold kind_of_name. destruct (find (fun p => list_eqb (fst p) s) KINDS) as [[a k]|] eqn:E; auto.
  left. apply find_some in E as (I & Q). apply list_eqb_eq in Q. cbn [fst] in Q. subst a. eauto.
Qed.
Lemma ok_verified : forall v23 m f, frame_ok v23 m f -> verify_frame f = true.
Proof.
  intros v23 m f K. destruct K as [f ((s & Hi & Hn & Hk & _) & _ & K1 & K2) _ _ _]. unfold verify_frame, f_name. rewrite Hi. cbn [id_str].
  destruct (name_kind s) as [(n & I & E)|E].
  - unfold KINDS in I. cbn [In] in I. repeat destruct I as [I|I]; try contradiction; injection I as <- <-;
    rewrite E in Hk; destruct f; cbn [kind_of] in *; try discriminate Hk; try congruence; reflexivity.
  - rewrite E in Hk. destruct s as [|x s]; [destruct f; cbn [kind_of] in Hk; try discriminate Hk; reflexivity|].
    rewrite match_TW in Hk. unfold starts. destruct (x =? 84) eqn:X; [|destruct (x =? 87) eqn:Y];
    destruct f; cbn [kind_of] in *; try discriminate Hk; try congruence; rewrite ?orb_true_r; auto.
Qed.
Lemma emit_result : forall (P : Prop) w f v, flags_ok (f_flags f) -> (2 ^ 32 <= lenN v + 1 -> P) -> too_large P (emit_frame w f v).
Proof.
  intros P w f v (_ & He & _) HP. unfold emit_frame, emit. rewrite He. unfold frame_header_bytes.
  assert (S : forall x, x < 2 ^ 32 -> too_large P (as_ferr (synch32 x) ESynch)).
  { intros x Hx. destruct (synch32_correct x Hx) as (S1 & S2). destruct (N.ltb_spec x (2 ^ 28)) as [H|H].
    destruct (S2 H) as (z & -> & _). exact I. apply S1 in H. rewrite H. cbn. auto. }
  assert (L : lenN v mod 2 ^ 32 < 2 ^ 32) by (apply N.mod_lt; discriminate).
  change (2 ^ 32) with 4294967296 in *. unfold U32_MAX.
  destruct (ff_group (f_flags f)).
  - destruct (N.eqb_spec (lenN v mod 4294967296) 4294967295); [apply HP; pose proof (N.mod_le (lenN v) 4294967296 ltac:(discriminate)); cbn [too_large]; lia|]. destruct (w_v23 w); cbn [bind]. exact I.
    specialize (S (lenN v mod 4294967296 + 1) ltac:(lia)). destruct (as_ferr _ _); auto.
  - destruct (w_v23 w); cbn [bind]. exact I. specialize (S _ L). destruct (as_ferr _ _); auto.
Qed.
Lemma write_result : forall (P : Prop) w m l, Forall (fun f => frame_ok (w_v23 w) m f -> too_large P (frame_bytes w f)) l -> Forall (frame_ok (w_v23 w) m) l ->
  Forall (fun f => forall v, frame_bytes w f = Ok v -> 2 ^ 32 <= lenN v + 1 -> P) l ->
  forall root, too_large P (if w_v23 w then items23 (frame_bytes w) w root None l else items24 (frame_bytes w) w root l).
Proof.
  intro P. induction l as [|f l IH]; intros PP KK HH root. destruct (w_v23 w); exact I.
  apply Forall_cons_iff in HH as [Hf HH].
  apply Forall_cons_iff in PP as [Pf PP]. apply Forall_cons_iff in KK as [Kf KK]. specialize (IH PP KK HH). specialize (Pf Kf).
  pose proof (ok_verified _ _ _ Kf) as Vf.
  assert (Hid : exists s, f_id f = Valid s /\ (w_v23 w = true -> ~ In s RENAMED)) by (destruct Kf as [f ((s & A & _ & _ & D) & _) _ _ _]; eauto).
  destruct Hid as (s & Hi & Hr).
  assert (Fo : flags_ok (f_flags f)) by (destruct Kf as [f (_ & A & _) _ _ _]; auto).
  assert (W : forall G : bool -> res ferr bytes, (forall r, too_large P (G r)) ->
    too_large P (let? (b, root) := write_one (frame_bytes w) w root f in let? r := G root in Ok (b ++ r))).
  { intros G HG. unfold write_one. fold (is_root f).
    assert (X : forall b r, too_large P (let? (b, root) := Ok (b, r) in let? x := G root in Ok (b ++ x))).
    { intros b r. cbn [bind]. specialize (HG r). destruct (G r); auto. }
    destruct (is_root f && root). apply X. destruct (frame_bytes w f) as [v| |]; cbn [bind]; auto.
    pose proof (emit_result P w f v Fo (Hf v eq_refl)) as Em. destruct (emit_frame w f v); auto. apply X. }
  destruct (w_v23 w) eqn:V.
  - cbn [items23]. rewrite Hi. cbn [is_valid_id negb]. destruct (conv_same s f Hi (Hr eq_refl)) as (C1 & C2). rewrite C1, C2, Vf. cbn [negb].
    apply (W (fun root => items23 (frame_bytes w) w root None l)). auto.
  - cbn [items24]. rewrite Hi. cbn [is_valid_id negb]. rewrite Vf. cbn [negb].
    apply (W (fun root => items24 (frame_bytes w) w root l)). auto.
Qed.
Lemma huge_child : forall w f l, In f l -> huge w (children f) -> huge w l.
Proof. intros w f l I (x & v & W & E & B). exists x, v. split; auto. eapply within_deep; eauto. Qed.
Lemma frame_result : forall w m f, frame_ok (w_v23 w) m f -> too_large (huge w (children f)) (frame_bytes w f).
Proof.
  intros w m f. revert f. apply (frame_rect' (fun f => frame_ok (w_v23 w) m f -> too_large (huge w (children f)) (frame_bytes w f))). intros f IH K.
  assert (HO : header_ok (w_v23 w) f /\ content_ok (w_v23 w) m f /\ Forall (frame_ok (w_v23 w) m) (children f)) by (destruct K; auto).
  destruct HO as (((s & Hi & Hn & Hk & _) & _) & C & KK).
  assert (X : too_large (huge w (children f)) (items (frame_bytes w) w (children f))).
  { unfold items. apply (write_result _ w m); auto.
    - rewrite Forall_forall in IH |- *. intros x Ix Kx. specialize (IH x Ix Kx). destruct (frame_bytes w x); auto. cbn [too_large] in *. eapply huge_child; eauto.
    - apply Forall_forall. intros x Ix v Ev B. exists x, v. split; auto. now constructor. }
  destruct (leaf f) eqn:Lf.
  - destruct (C138_written w m f) as [(b & -> & _)|[-> _]]; eauto; try (destruct f; discriminate); cbn; auto.
  - destruct f as [| | | | | | | | | | | | | | |h i [st et] [so eo] l|h i top ord es l|]; try discriminate Lf; cbn [FrameProof2.children] in *;
    cbn [content_ok] in C; cbn [frame_bytes]; fold (frame_bytes w).
    + destruct C as (Ci & _). destruct (rt_latin w i [] Ci) as (n & -> & _). cbn [bind]. destruct (items (frame_bytes w) w l); auto.
    + destruct C as (Ci & Ce). destruct (255 <? lenN es); [cbn; auto|]. destruct (rt_latin w i [] Ci) as (n & -> & _). cbn [bind].
      destruct (entries_rt w es [] Ce) as (eb & -> & _). cbn [bind]. destruct (items (frame_bytes w) w l); auto.
Qed.
Theorem C139_written : forall w m l, Forall (frame_ok (w_v23 w) m) l -> too_large (huge w l) (write_frames w l).
Proof.
  intros w m l F. unfold write_frames. apply (write_result _ w m l); auto.
  - apply Forall_forall. intros x Ix Kx. pose proof (frame_result w m x Kx) as R. destruct (frame_bytes w x); auto. cbn [too_large] in *. eapply huge_child; eauto.
  - apply Forall_forall. intros x Ix v Ev B. exists x, v. split; auto. now constructor.
Qed.
Print Assumptions C139_written.

(** A tag with a chapter that contains a title. *)
Definition ex_title := FText (head ($"TIT2")) UTF8 [233; 0; 8364].
Definition ex_group := FText (mkFH (Valid ($"TPE1")) (mkFF true false false (Some 9) false None false None)) Latin1 ($"artist").
Definition ex_chap := FChap (head ($"CHAP")) ($"c1") (0, 1000) (2 ^ 32 - 1, 7) [ex_title].
Definition ex_toc := FCtoc (head ($"CTOC")) ($"toc") true true [$"c1"; $"c2"] [].
Definition ex_frames := [ex_title; ex_group; c_comment; ex_toc; ex_chap; c_popm].
Definition no_flags := mkTFlags false false false false None.
Definition ex_opts := mkFO Strict true true.
Definition reread (w : wopts) (f : tag_flags) (o : fopts) (l : list frame) : option (list frame) :=
  match create_tag w f l with
  | Ok tag =>
      match header_parse tag with
      | (Ok h, r) => match parse_id3v2 (fun _ => None) h o r with Ok (t, _) => Some (t_frames t) | _ => None end
      | _ => None
      end
  | _ => None
  end.
Example C139_ex : reread (mkW false false true (Some 100)) no_flags ex_opts ex_frames = Some ex_frames /\
  reread w24 (mkTFlags false true true false None) ex_opts ex_frames = Some ex_frames /\
  Forall (frame_ok false Strict) ex_frames /\ list_ok false ex_frames.
Proof.
  split; [vm_compute; reflexivity|]. split; [vm_compute; reflexivity|].
  assert (L0 : forall v, list_ok v []) by (intro; split; [constructor|cbv; discriminate]).
  assert (N : forall s, forallb (fun c => is_upper c || is_digit c) s = true -> length s = 4%nat -> valid_name s).
  { intros s H L. split; auto. eapply all_b; [|exact H]. unfold is_upper, is_digit. cbv beta. intros. lia. }
  assert (H : forall f s, f_id f = Valid s -> forallb (fun c => is_upper c || is_digit c) s = true -> length s = 4%nat ->
              kind_of_name s = kind_of f -> flags_ok (f_flags f) -> kind_of f <> KOwne -> kind_of f <> KEtco -> header_ok false f).
  { intros f s A B C D E F G. split; auto. exists s. split; auto. split; auto. split; auto. discriminate. }
  assert (D0 : flags_ok ff_default) by (repeat split).
  assert (T1 : frame_ok false Strict ex_title).
  { apply ok_frame; [eapply H; try reflexivity; auto; discriminate| |constructor|apply L0].
    split. repeat constructor; unfold scalar; lia. split; [discriminate|exact I]. }
  split.
  - apply Forall_cons; [exact T1|]. apply Forall_cons; [|apply Forall_cons; [|apply Forall_cons; [|apply Forall_cons; [|apply Forall_cons; [|constructor]]]]].
    + apply ok_frame; [eapply H; try reflexivity; auto; try discriminate; repeat split|now apply plain_text|constructor|apply L0].
    + apply ok_frame; [eapply H; try reflexivity; auto; discriminate| |constructor|apply L0].
      split; [reflexivity|]. split. apply (all_b is_alpha); [|reflexivity]. unfold is_alpha, is_upper, letter. intros; lia. split; now apply plain.
    + apply ok_frame; [eapply H; try reflexivity; auto; discriminate| |constructor|apply L0].
      split. now apply plain. repeat (apply Forall_cons; [now apply plain|]). constructor.
    + apply ok_frame; [eapply H; try reflexivity; auto; discriminate| | |].
      * split. now apply plain. repeat split.
      * constructor; auto.
      * split. repeat constructor; cbn; intuition. cbv. discriminate.
    + apply ok_frame; [eapply H; try reflexivity; auto; discriminate| |constructor|apply L0].
      split. now apply plain. split; reflexivity.
  - split. repeat (constructor; [cbn [map In]; intro X; repeat destruct X as [X|X]; try contradiction; discriminate X|]). constructor. cbv. discriminate.
Qed.
Example C140_ex : reread w23 no_flags ex_opts [ex_title; ex_group; c_comment; ex_toc; ex_chap; c_popm] =
  Some [FText (head ($"TIT2")) UTF16 [233; 0; 8364]; ex_group; c_comment; ex_toc;
        FChap (head ($"CHAP")) ($"c1") (0, 1000) (2 ^ 32 - 1, 7) [FText (head ($"TIT2")) UTF16 [233; 0; 8364]]; c_popm].
Proof. vm_compute. reflexivity. Qed.
