(** Theorems about the detection of file types. *)
From Verif Require Import BaseLemmas StrLemmas Id3v2HeaderModel IffModel AiffModel Mp4Model FlacModel OggFinal OggFileModel MpegSpec MpegProof2 MpegThm OggFileThm.
From Verif Require Import ProbeProof.

Definition at_start (d : bytes) : cursor := mkCu d 0.

(** ** C198: magic numbers *)
Theorem C198_magic : forall g junk u f, unclaimed g (takeN 36 (rest u)) -> begins f (rest u) -> guess_inner g junk u = Ok (Some f, u).
Proof. intros g junk u f UN B. unfold guess_inner. rewrite (unclaimed_find _ _ UN), (begins_buffer _ _ B). reflexivity. Qed.
Theorem C198_sound : forall d f, bytes_ok d -> from_buffer d = Some f -> marked f d.
Proof.
  intros d f OK. unfold from_buffer, from_buffer_inner. destruct d as [|b d]; [discriminate|]. remember (b :: d) as x. destruct (quick_type_guess x) eqn:Q.
  - intros H. injection H as <-. now apply quick_marked.
  - now destruct (_ && _).
Qed.
(** A first packet of 255 bytes has two segments. *)
Definition long_head (streams : N) : bytes := $"OpusHead" ++ [1; 240; 0; 0] ++ le_enc 4 48000 ++ [0; 0; 255; streams; 240 - streams] ++ map N.of_nat (seq 0 240).
Definition long_opus (streams : N) : bytes := ogg_data [crc_page (mkPage 0 2 0 7 0 [255; lenN (long_head streams) - 255] 0 (long_head streams) 0); pg 0 0 7 1 ex_comments] ex_ap [].
Theorem C198_long_head_refuted : lenN (long_head 120) = 261 /\ (exists t, ogg_file_read Opus (mkVo true true Strict) true false (long_opus 120) = Ok t) /\
  guess_inner no_resolvers 1024 (at_start (long_opus 120)) = Ok (None, at_start (long_opus 120)) /\ guess_inner no_resolvers 1024 (at_start (long_opus 240)) = Ok (Some FAac, at_start (long_opus 240)).
Proof. split; [reflexivity|]. split; [eexists; vm_compute; reflexivity|]. split; vm_compute; reflexivity. Qed.
Example C198_example : map from_buffer [$"RIFFabcdWAVEfmt "; $"FORMabcdAIFC"; $"fLaC"; $"MAC "; be_enc 4 32 ++ $"ftypM4A "; [0xFF; 0xFB; 0x90]; [0xFF; 0xF1; 0x50]; $"MPCKSH"; $"ID3"; $"RIFFabcdAVI "] =
  [Some FWav; Some FAiff; Some FFlac; Some FApe; Some FMp4; Some FMpeg; Some FAac; Some FMpc; None; None].
Proof. reflexivity. Qed.

(** ** C199: behind an ID3v2 tag *)
Theorem C199_behind_tag : forall g junk u d x f, id3_ok d -> footer d = [] -> rest u = id3_bytes d ++ x -> bytes_ok x -> unclaimed g (takeN 36 (rest u)) -> 2 <= junk ->
  begins f x -> In f [FApe; FFlac; FMpc; FMpeg; FAac] -> guess_inner g junk u = Ok (Some f, u).
Proof.
  intros g junk u d x f D NF E OK UN J B I. destruct (guess_behind g junk u d x D E OK UN) as (o & G & H). rewrite G. f_equal. f_equal. rewrite NF in H. cbn [app] in H.
  assert (SY : forall b r, x = 0xFF :: b :: r -> 0xE0 <= b -> o = Some (kind_of b)).
  { intros b r -> GE. destruct H as [(r' & X & _)|[(r' & X & _)|[(r' & [X|X] & _)|[_ F]]]]; try discriminate X. eapply found_first; eauto. }
  destruct B; try (exfalso; cbn in I; intuition discriminate).
  - destruct H as [(r' & X & _)|[(r' & _ & ->)|[(r' & [X|X] & _)|[H _]]]]; try discriminate X; auto. exfalso. destruct (H r) as (? & ? & ? & ?). auto.
  - destruct H as [(r' & _ & ->)|[(r' & X & _)|[(r' & [X|X] & _)|[H _]]]]; try discriminate X; auto. exfalso. destruct (H r) as (? & ? & ? & ?). auto.
  - destruct H as [(r' & X & _)|[(r' & X & _)|[(r' & _ & ->)|[H _]]]]; try discriminate X; auto. exfalso. destruct (H ([k; l] ++ r)) as (? & ? & ? & ?). auto.
  - destruct H as [(r' & X & _)|[(r' & X & _)|[(r' & _ & ->)|[H _]]]]; try discriminate X; auto. exfalso. destruct (H ([v] ++ le_enc 4 frames ++ r)) as (? & ? & ? & ?). auto.
  - rewrite (SY _ _ eq_refl) by lia. f_equal. unfold kind_of. replace ((0xE0 + v * 8 + l * 2 + p) / 2 mod 4 =? 0) with false; [now rewrite andb_false_r|].
    symmetry. apply N.eqb_neq. replace ((0xE0 + v * 8 + l * 2 + p) / 2) with (l + (112 / 4 + v) * 4); [rewrite N.mod_add by lia; rewrite N.mod_small; lia|]. change (112 / 4) with 28. lia.
  - rewrite (SY _ _ eq_refl) by lia. f_equal. unfold kind_of. assert (Cv : v = 0 \/ v = 1) by lia. assert (Cp : p = 0 \/ p = 1) by lia. destruct Cv as [->| ->], Cp as [->| ->]; reflexivity.
Qed.
Definition footed : id3 := mkI3 4 0 0x10 (repeat 0 16).
Theorem C199_footer_refuted : exists d x, id3_ok d /\ begins FFlac x /\ guess_inner no_resolvers 1024 (at_start (id3_bytes d ++ x)) = Ok (None, at_start (id3_bytes d ++ x)).
Proof. exists footed, ($"fLaC" ++ [0; 0; 0; 34]). split. { repeat split; try reflexivity. repeat constructor. } split; [constructor|]. reflexivity. Qed.
Example C199_example : guess_inner no_resolvers 1024 (at_start (id3_bytes (mkI3 4 0 0 (repeat 0 16)) ++ $"fLaC")) = Ok (Some FFlac, at_start (id3_bytes (mkI3 4 0 0 (repeat 0 16)) ++ $"fLaC")) /\
  guess_inner no_resolvers 1024 (at_start (id3_bytes (mkI3 3 0 0 []) ++ [0; 1; 0xFF; 0xFB])) = Ok (Some FMpeg, at_start (id3_bytes (mkI3 3 0 0 []) ++ [0; 1; 0xFF; 0xFB])) /\ footer (mkI3 4 0 0 []) = [].
Proof. repeat split. Qed.

(** ** C200: behind other bytes. The first sync counts, if it is among the first [junk] bytes. *)
Definition first_sync (d : bytes) (i b : N) : Prop := sync_pair d i b /\ forall j c, j < i -> ~ sync_pair d j c.
Theorem C200_junk : forall g junk u f, bytes_ok (rest u) -> unclaimed g (takeN 36 (rest u)) -> (forall f, ~ marked f (rest u)) -> (forall r, rest u <> $"ID3" ++ r) ->
  (guess_inner g junk u = Ok (Some f, u) <-> exists i b, first_sync (rest u) i b /\ i + 2 <= junk /\ f = kind_of b).
Proof.
  intros g junk u f OK UN NM NI.
  assert (X : rest u = [] \/ from_buffer_inner (takeN 36 (rest u)) = Some PrecededByJunk).
  { destruct (rest u) as [|b r] eqn:E; [now left|]. right. unfold from_buffer_inner. rewrite quick_take. destruct (quick_type_guess (b :: r)) eqn:Q. { exfalso. apply quick_marked in Q; auto. eapply NM; eauto. }
    rewrite slice_take by lia. destruct (list_eqb (slice 0 3 (b :: r)) ($"ID3")) eqn:I. { apply list_eqb_eq, slice0 in I; [|reflexivity]. exfalso. eapply NI; eauto. } rewrite andb_false_r. reflexivity. }
  unfold guess_inner. rewrite (unclaimed_find _ _ UN). destruct X as [X| ->].
  - rewrite X. cbn. split; [discriminate|]. intros (i & b & [[(p & q & E & _) _] _] & _). destruct p; discriminate.
  - destruct (check_found junk u OK) as (o & p & -> & F). rewrite to_to, to_self. split.
    + intros H. injection H as ->. destruct F as (i & b & P & L & FI & ->). exists i, b. repeat split; auto; apply P.
    + intros (i & b & [P FI] & L & ->). f_equal. f_equal. destruct o as [o|].
      * destruct F as (j & c & P' & L' & FJ & ->). assert (i = j). { destruct (N.lt_trichotomy i j) as [?|[?|?]]; auto; exfalso; [eapply FJ|eapply FI]; eauto. } subst j. f_equal.
        destruct P as [(p1 & q1 & E1 & L1) _], P' as [(p2 & q2 & E2 & L2) _]. rewrite E1 in E2. assert (D : dropN i (p1 ++ 255 :: b :: q1) = dropN i (p2 ++ 255 :: c :: q2)) by (now rewrite E2). rewrite !dropN_app in D by auto. now injection D as -> _.
      * exfalso. specialize (F i b P). lia.
Qed.
Example C200_example : guess_inner no_resolvers 5 (at_start [1; 255; 3; 0xFF; 0xF1; 0xFF; 0xFB]) = Ok (Some FAac, at_start [1; 255; 3; 0xFF; 0xF1; 0xFF; 0xFB]) /\
  guess_inner no_resolvers 4 (at_start [1; 255; 3; 0xFF; 0xF1; 0xFF; 0xFB]) = Ok (None, at_start [1; 255; 3; 0xFF; 0xF1; 0xFF; 0xFB]).
Proof. now split. Qed.

(** ** C201: guessing never fails on a reader that does not fail, leaves the reader where it was, and looks only at what follows. *)
Theorem C201_position : forall g p, exists f, guess_file_type g p = Ok (mkPb (pb_in p) (pb_junk p) f) /\ (f = pb_type p \/ exists t, f = Some t).
Proof. intros g p. unfold guess_file_type. destruct (guess_total g (match pb_junk p with Some n => n | None => DEFAULT_MAX_JUNK_BYTES end) (pb_in p)) as (f & ->). eexists. split; [reflexivity|]. destruct f; eauto. Qed.
Theorem C201_local : forall g junk u v f, rest u = rest v -> guess_inner g junk u = Ok (f, u) -> guess_inner g junk v = Ok (f, v).
Proof.
  assert (R : forall u v n, rest u = rest v -> rest (to u (u_pos u + n)) = rest (to v (u_pos v + n))). { intros u v n E. unfold rest, to in *. cbn [u_data u_pos]. now rewrite <- !dropN_dropN, E. }
  assert (C : forall junk u v, rest u = rest v -> fst (check_mpeg_or_aac junk u) = fst (check_mpeg_or_aac junk v)). { intros junk u v E. unfold check_mpeg_or_aac. rewrite E. now destruct (search_for_frame_sync _). }
  intros g junk u v f E. destruct (guess_total g junk v) as (f' & GV). intros GU. rewrite GV. enough (f = f') by (subst; reflexivity). revert GU GV. unfold guess_inner. rewrite E. set (buf := takeN 36 (rest v)).
  destruct (if rg_use g then _ else None) as [[n r]|]; [congruence|]. destruct (from_buffer_inner buf) as [[t|size|]|]; try congruence.
  - destruct (2 ^ 32 <=? 10 + size); [discriminate|]. rewrite (R u v _ E). repeat match goal with |- context [if ?b then _ else _] => destruct b end; try congruence.
    specialize (C junk _ _ (R u v (10 + size) E)). destruct (check_mpeg_or_aac _ _), (check_mpeg_or_aac _ _). cbn [fst] in C. congruence.
  - specialize (C junk u v E). destruct (check_mpeg_or_aac _ _), (check_mpeg_or_aac _ _). cbn [fst] in C. congruence.
Qed.
Example C201_example : guess_inner no_resolvers 1024 (mkCu (repeat 9 5 ++ $"fLaC") 5) = Ok (Some FFlac, mkCu (repeat 9 5 ++ $"fLaC") 5) /\
  guess_file_type no_resolvers (set_file_type FMpeg (probe_new (at_start [1; 2]))) = Ok (set_file_type FMpeg (probe_new (at_start [1; 2]))).
Proof. now split. Qed.

(** ** C202: what the readers accept is recognised. *)
Lemma accepted : forall d f junk, begins f d -> guess_inner no_resolvers junk (at_start d) = Ok (Some f, at_start d).
Proof. intros d f junk B. apply C198_magic; [right; constructor|exact B]. Qed.
Lemma twelve : forall (d : bytes) p q, 12 <= lenN d -> takeN 4 (takeN 12 d) = p -> dropN 8 (takeN 12 d) = q -> exists s r, d = p ++ s ++ q ++ r /\ lenN s = 4.
Proof.
  intros d p q L <- <-. exists (takeN 4 (dropN 4 (takeN 12 d))), (dropN 12 d). split.
  - rewrite !app_assoc. rewrite <- app_assoc, <- app_assoc. rewrite <- (takeN_dropN _ 12 d) at 1. rewrite app_assoc, app_assoc. f_equal. rewrite <- (takeN_dropN _ 4 (takeN 12 d)) at 1. rewrite <- app_assoc. f_equal.
    rewrite <- (takeN_dropN _ 4 (dropN 4 (takeN 12 d))) at 1. f_equal. now rewrite dropN_dropN.
  - rewrite lenN_takeN, lenN_dropN, lenN_takeN. lia.
Qed.
Theorem C202_wav : forall T (id3 : bytes -> res iff_error T) join m tags props d w junk, wav_read id3 join m tags props d = Ok w -> guess_inner no_resolvers junk (at_start d) = Ok (Some FWav, at_start d).
Proof.
  intros T id3 join m tags props d w junk. unfold wav_read, verify_wav, read_exact. destruct (N.leb_spec 12 (lenN d)) as [L|L]; [|discriminate]. cbn [iord bind].
  destruct (_ && _) eqn:E; [|discriminate]. intros _. apply andb_prop in E as [E1 E2]. apply list_eqb_eq in E1, E2. destruct (twelve d _ _ L E1 E2) as (s & r & -> & LS). apply accepted. now constructor.
Qed.
Theorem C202_aiff : forall T (id3 : bytes -> res iff_error T) join m tags props d w junk, aiff_read id3 join m tags props d = Ok w -> guess_inner no_resolvers junk (at_start d) = Ok (Some FAiff, at_start d).
Proof.
  intros T id3 join m tags props d w junk. unfold aiff_read, verify_aiff, read_exact. destruct (N.leb_spec 12 (lenN d)) as [L|L]; [|discriminate]. cbn [iord bind].
  destruct (list_eqb (takeN 4 (takeN 12 d)) ($"FORM")) eqn:E1; [|discriminate]. cbn [negb]. apply list_eqb_eq in E1. destruct (list_eqb (dropN 8 (takeN 12 d)) ($"AIFF")) eqn:E2.
  - intros _. apply list_eqb_eq in E2. destruct (twelve d _ _ L E1 E2) as (s & r & -> & LS). apply accepted. now constructor.
  - destruct (list_eqb (dropN 8 (takeN 12 d)) ($"AIFC")) eqn:E3; [|discriminate]. intros _. apply list_eqb_eq in E3. destruct (twelve d _ _ L E1 E3) as (s & r & -> & LS). apply accepted. now constructor.
Qed.
Theorem C202_flac : forall ok o d f junk, flac_read ok o d = Ok f -> takeN 3 d <> $"ID3" -> guess_inner no_resolvers junk (at_start d) = Ok (Some FFlac, at_start d).
Proof.
  intros ok o d f junk H NI. apply accepted. revert H. unfold flac_read. destruct (find_id3v2 d 0 (fo_tags o) None) as [[[h c] p]|?|] eqn:F; [|discriminate|discriminate].
  assert (P : h = None /\ p = 0).
  { revert F. unfold find_id3v2. change (dropN 0 d) with d. unfold header_parse, read_exact. destruct (N.leb_spec 10 (lenN d)) as [L|L].
    - replace (list_eqb (takeN 3 (takeN 10 d)) ($"ID3")) with false. 2: { symmetry. apply list_eqb_neq. rewrite take_take by lia. exact NI. }
      cbn [negb]. unfold seek_back. rewrite lenN_dropN. replace (N.max 0 (lenN d - (lenN d - 10))) with 10 by lia. cbn. intros X. injection X as <- _ <-. auto.
    - unfold seek_back. change (lenN (@nil N)) with 0. replace (N.max 0 (lenN d - 0) <? 10) with true by lia. discriminate. }
  destruct P as [-> ->]. cbn [bind]. unfold verify_flac. change (dropN 0 d) with d. unfold read_exact at 1. destruct (N.leb_spec 4 (lenN d)) as [L|L]; [|discriminate]. cbn [frd bind].
  destruct (list_eqb (takeN 4 d) ($"fLaC")) eqn:M; [|discriminate]. intros _. apply list_eqb_eq in M. rewrite <- (takeN_dropN _ 4 d), M. constructor.
Qed.
Lemma exact_takes : forall data n r x r', 0 < n -> Mp4Model.rd_exact data n r = Ok (x, r') -> x = takeN n (dropN (r_pos r) data) /\ n <= lenN (dropN (r_pos r) data) /\ r_pos r' = r_pos r + n.
Proof.
  intros data n r x r' N0. unfold Mp4Model.rd_exact. replace (n =? 0) with false by lia.
  assert (I : rd_inner data n r = Ok (x, r') -> x = takeN n (dropN (r_pos r) data) /\ n <= lenN (dropN (r_pos r) data) /\ r_pos r' = r_pos r + n).
  { unfold rd_inner, read_exact. destruct (N.leb_spec n (lenN (dropN (r_pos r) data))); [|discriminate]. cbn [mord bind]. intros H'. injection H' as <- <-. auto. }
  destruct (r_bound r) as [b|]; [|exact I]. destruct (b_rem b =? 0); [discriminate|exact I].
Qed.
Lemma head_takes : forall data size m r h r', read_head data size m r = Ok (Some h, r') -> 8 <= lenN (dropN (r_pos r) data) /\ h_id h = takeN 4 (dropN (r_pos r + 4) data).
Proof.
  intros data size m r h r'. unfold read_head, rd_be. destruct (Mp4Model.rd_exact data 4 r) as [[x r1]|?|] eqn:E1; [|discriminate|discriminate]. cbn [bind].
  apply exact_takes in E1 as (_ & L1 & P1); [|lia]. destruct (Mp4Model.rd_exact data 4 r1) as [[y r2]|?|] eqn:E2; [|discriminate|discriminate]. cbn [bind]. apply exact_takes in E2 as (-> & L2 & P2); [|lia]. rewrite P1 in *.
  assert (L8 : 8 <= lenN (dropN (r_pos r) data)) by (rewrite lenN_dropN in *; lia).
  destruct (negb _). { destruct (is_strict m); discriminate. }
  match goal with |- context [bind ?X _] => destruct X as [[[len ext] r3]|?|]; [|discriminate|discriminate] end. cbn [bind]. destruct (len <? 8); [discriminate|]. destruct (size <? len - 8). { destruct (_ || _); discriminate. }
  intros H. injection H as <- _. cbn [h_id]. auto.
Qed.
Theorem C202_mp4_partial : forall d o x junk, bytes_ok d -> mp4_read d o = Ok x -> be_dec (takeN 4 d) < 2 ^ 30 -> guess_inner no_resolvers junk (at_start d) = Ok (Some FMp4, at_start d).
Proof.
  intros d o x junk OK H SM. assert (K : takeN 4 (dropN 4 d) = $"ftyp" /\ 8 <= lenN d).
  { revert H. unfold mp4_read, verify_mp4, next, atom_reader. cbn [r_bound b_rem]. destruct (lenN d =? 0); [discriminate|]. destruct (lenN d <? 8); [discriminate|]. unfold read_info.
    destruct (read_head _ _ _ _) as [[[h|] r1]|?|] eqn:E; [|discriminate|discriminate|discriminate]. apply head_takes in E as (L & E). cbn [r_pos] in *. change (0 + 4) with 4 in E. change (dropN 0 d) with d in L. rewrite <- E. cbn [bind].
    destruct (list_eqb (h_id h) ($"----")) eqn:FF.
    - destruct (lenN d <? 8); [discriminate|]. destruct (lenN d - 8 <? 8); [discriminate|]. destruct (parse_freeform _ _ _ _) as [[i r2]|?|] eqn:PF; [|discriminate|discriminate]. cbn [bind a_ident].
      enough (is_fourcc ($"ftyp") i = false) as -> by discriminate. revert PF. unfold parse_freeform. destruct (_ <? 24); [discriminate|]. destruct (freeform_chunk _ _ _ _ _) as [[[mean len] r3]|?|]; [|discriminate|discriminate]. cbn [bind].
      destruct (freeform_chunk _ _ _ _ _) as [[[name len'] r4]|?|]; [|discriminate|discriminate]. cbn [bind]. intros X. injection X as <- _. reflexivity.
    - cbn [bind a_ident is_fourcc]. destruct (list_eqb (h_id h) ($"ftyp")) eqn:EF; [|discriminate]. apply list_eqb_eq in EF. intros _. auto. }
  destruct K as [F L]. apply accepted. assert (E : d = takeN 4 d ++ $"ftyp" ++ dropN 8 d). { rewrite <- (takeN_dropN _ 4 d) at 1. f_equal. rewrite <- (takeN_dropN _ 4 (dropN 4 d)) at 1. rewrite F. f_equal. now rewrite dropN_dropN. }
  rewrite E. assert (L4 : lenN (takeN 4 d) = 4) by (rewrite lenN_takeN; lia). replace (takeN 4 d) with (be_enc 4 (be_dec (takeN 4 d))). { now constructor. }
  replace 4%nat with (length (takeN 4 d)) by (unfold lenN in L4; lia). apply be_enc_dec. now apply Forall_takeN.
Qed.
(** Zeros in front: the reader of MPEG files skips any number of them. *)
Definition late : bytes := repeat 0 1023 ++ audio_of [frame0; frame0; frame0].
Theorem C202_mpeg_refuted : (exists f, mpeg_read no_inflate opts0 late = Ok f) /\ guess_inner no_resolvers DEFAULT_MAX_JUNK_BYTES (at_start late) = Ok (None, at_start late).
Proof. split; [eexists; vm_compute; reflexivity|vm_compute; reflexivity]. Qed.
(** A tag with a footer: the reader of FLAC files accepts it. *)
Definition flac_footed : bytes := id3_bytes footed ++ $"fLaC" ++ [0x80; 0; 0; 34] ++ repeat 0 34.
Theorem C202_flac_refuted : (exists f, flac_read (fun _ _ => true) (FlacModel.mkFo (mkVo true true Strict) true false) flac_footed = Ok f) /\ guess_inner no_resolvers DEFAULT_MAX_JUNK_BYTES (at_start flac_footed) = Ok (None, at_start flac_footed).
Proof. split; [eexists; vm_compute; reflexivity|vm_compute; reflexivity]. Qed.
Example C202_example : guess_inner no_resolvers 0 (at_start ($"fLaC" ++ [0x80; 0; 0; 34] ++ repeat 0 34)) = Ok (Some FFlac, at_start ($"fLaC" ++ [0x80; 0; 0; 34] ++ repeat 0 34)) /\
  (exists f, flac_read (fun _ _ => true) (FlacModel.mkFo (mkVo true true Strict) true false) ($"fLaC" ++ [0x80; 0; 0; 34] ++ repeat 0 34) = Ok f).
Proof. split; [reflexivity|eexists; vm_compute; reflexivity]. Qed.

(** ** C203: names. The extensions of the formats *)
Definition ext_of (f : ftype) : list (list N) :=
  match f with
  | FAac => [$"aac"] | FAiff => [$"aiff"; $"aif"; $"afc"; $"aifc"] | FApe => [$"ape"] | FFlac => [$"flac"] | FMpeg => [$"mp3"; $"mp2"; $"mp1"]
  | FMp4 => [$"mp4"; $"m4a"; $"m4b"; $"m4p"; $"m4r"; $"m4v"; $"3gp"] | FMpc => [$"mpc"; $"mp+"; $"mpp"] | FOpus => [$"opus"] | FVorbis => [$"ogg"] | FSpeex => [$"spx"]
  | FWav => [$"wav"; $"wave"] | FWavPack => [$"wv"] | FCustom _ => []
  end.
(** No resolver wants the extension. *)
Definition unwanted (g : registry) (e : list N) : Prop := rg_use g = false \/ Forall (fun r => rs_ext (snd r) <> Some e) (rg_map g).
Lemma unwanted_find : forall g e, unwanted g e -> (if rg_use g then find (fun r => match rs_ext (snd r) with Some x => list_eqb x e | None => false end) (rg_map g) else None) = None.
Proof.
  intros g e [->|H]; [reflexivity|]. destruct (rg_use g); auto. induction H as [|r l H _ IH]; [reflexivity|]. cbn [find]. destruct (rs_ext (snd r)) as [x|]; auto. destruct (list_eqb x e) eqn:E; auto. apply list_eqb_eq in E. congruence.
Qed.
Theorem C203_extensions : forall g e f, unwanted g (lower e) -> (from_ext g e = Some f <-> In (lower e) (ext_of f)).
Proof.
  intros g e f U. unfold from_ext. rewrite (unwanted_find _ _ U). generalize (lower e). intros x. split.
  - destruct (find _ ext_table) as [[l t]|] eqn:F; [|discriminate]. intros H. injection H as <-. apply find_some in F as [I F]. cbn [fst] in F. apply existsb_exists in F as (y & Y & EQ). apply list_eqb_eq in EQ. subst y.
    assert (A : Forall (fun p => fst p = ext_of (snd p)) ext_table) by (repeat constructor). rewrite Forall_forall in A. apply A in I. cbn [fst snd] in I. now rewrite <- I.
  - intros I. assert (A : Forall (fun f => Forall (fun x => match find (fun e => existsb (list_eqb x) (fst e)) ext_table with Some (_, f) => Some f | None => None end = Some f) (ext_of f)) [FAac; FAiff; FApe; FFlac; FMpeg; FMp4; FMpc; FOpus; FVorbis; FSpeex; FWav; FWavPack]).
    { repeat constructor. }
    rewrite Forall_forall in A. assert (J : In f [FAac; FAiff; FApe; FFlac; FMpeg; FMp4; FMpc; FOpus; FVorbis; FSpeex; FWav; FWavPack]) by (destruct f; cbn [In]; auto 14; destruct I). specialize (A f J). rewrite Forall_forall in A. now apply A.
Qed.
Theorem C203_case : forall g a b, lower a = lower b -> from_ext g a = from_ext g b.
Proof. intros g a b H. unfold from_ext. now rewrite H. Qed.
(** A resolver is asked first; its extension has to be in lower case. *)
Theorem C203_custom : forall g e name r, rg_use g = true -> In (name, r) (rg_map g) -> rs_ext r = Some (lower e) -> (forall n r', In (n, r') (rg_map g) -> rs_ext r' = Some (lower e) -> n = name) ->
  from_ext g e = Some (FCustom name).
Proof.
  intros g e name r U I E ONE. unfold from_ext. rewrite U. destruct (find _ (rg_map g)) as [[n r']|] eqn:F.
  - apply find_some in F as [J F]. cbn [snd] in F. destruct (rs_ext r') as [x|] eqn:X; [|discriminate]. apply list_eqb_eq in F. subst x. now rewrite (ONE n r' J X).
  - exfalso. apply (find_none _ _ F) in I. cbn [snd] in I. rewrite E in I. rewrite list_eqb_refl in I. discriminate.
Qed.
Theorem C203_custom_case_refuted : exists g name r e, rg_use g = true /\ rg_map g = [(name, r)] /\ rs_ext r = Some e /\ from_ext g e = None.
Proof. exists (mkRg true [($"My", mkRs (Some ($"MYF")) Ape (fun _ => ReadWrite) (fun _ => None))]). repeat eexists. Qed.
Theorem C203_list : forall e, In e EXTENSIONS -> from_ext no_resolvers e <> None.
Proof. assert (A : Forall (fun e => from_ext no_resolvers e <> None) EXTENSIONS) by (repeat constructor; discriminate). now rewrite Forall_forall in A. Qed.
Theorem C203_list_refuted : exists e f, from_ext no_resolvers e = Some f /\ ~ In (lower e) EXTENSIONS.
Proof. exists ($"wave"), FWav. split; [reflexivity|]. intros H. assert (X : existsb (list_eqb ($"wave")) EXTENSIONS = true) by (apply existsb_exists; exists ($"wave"); split; [exact H|apply list_eqb_refl]). discriminate X. Qed.
(** Paths *)
Lemma split_slash : forall a f cur, split_on 47 (a ++ 47 :: f) cur = split_on 47 a cur ++ split_on 47 f [].
Proof. induction a as [|c a IH]; intros f cur; cbn [app split_on]; [reflexivity|]. destruct (c =? 47); [|apply IH]. cbn [app]. now rewrite IH. Qed.
Lemma split_none : forall f cur, ~ In 47 f -> split_on 47 f cur = [rev cur ++ f].
Proof.
  induction f as [|c f IH]; intros cur H; cbn [split_on]. { now rewrite app_nil_r. }
  replace (c =? 47) with false by (symmetry; apply N.eqb_neq; intros ->; apply H; now left). rewrite IH by (intros I; apply H; now right). cbn [rev]. now rewrite <- app_assoc.
Qed.
Lemma after_dot_rev : forall e n cur, ~ In 46 e -> after_dot (rev (n ++ 46 :: e)) cur = Some (n, e ++ cur).
Proof.
  intros e n cur. rewrite rev_app_distr. cbn [rev]. rewrite <- app_assoc. cbn [app]. revert cur. induction e as [|c e IH] using rev_ind; intros cur H.
  - cbn [rev app after_dot]. change (46 =? 46) with true. cbn. now rewrite rev_involutive.
  - rewrite rev_app_distr. cbn [rev app after_dot]. replace (c =? 46) with false by (symmetry; apply N.eqb_neq; intros ->; apply H; apply in_app_iff; right; now left).
    rewrite IH by (intros I; apply H; apply in_app_iff; now left). now rewrite <- app_assoc.
Qed.
Lemma name_is : forall dir f, f <> [] -> ~ In 47 f -> f <> [46] -> f <> [46; 46] -> (dir = [] \/ exists d, dir = d ++ [47]) -> file_name (dir ++ f) = Some f.
Proof.
  intros dir f N0 N47 N1 N2 D. unfold file_name. assert (S1 : exists l, split_on 47 (dir ++ f) [] = l ++ [f]).
  { destruct D as [->|(d & ->)]; [exists []; cbn [app]; now rewrite split_none|]. rewrite <- app_assoc. cbn [app]. rewrite split_slash, (split_none f) by auto. eexists. reflexivity. }
  destruct S1 as (l & ->). rewrite filter_app. cbn [filter]. replace (list_eqb f []) with false by (symmetry; now apply list_eqb_neq). replace (list_eqb f [46]) with false by (symmetry; now apply list_eqb_neq). cbn [orb negb].
  rewrite rev_app_distr. cbn [rev app]. replace (list_eqb f [46; 46]) with false by (symmetry; now apply list_eqb_neq). reflexivity.
Qed.
Theorem C203_path : forall g dir name e, (dir = [] \/ exists d, dir = d ++ [47]) -> name <> [] -> e <> [] -> ~ In 47 (name ++ e) -> ~ In 46 e -> from_path g (dir ++ name ++ [46] ++ e) = from_ext g e.
Proof.
  intros g dir name e D NN NE N47 N46. unfold from_path, extension. rewrite name_is; auto.
  - cbn [app]. rewrite after_dot_rev by auto. rewrite app_nil_r. now destruct name.
  - destruct name; [easy|discriminate].
  - intros I. apply N47. apply in_app_iff in I as [I|I]; [apply in_app_iff; now left|]. destruct I as [I|I]; [discriminate|apply in_app_iff; now right].
  - intros X. apply (f_equal (@length N)) in X. rewrite !app_length in X. destruct name; [easy|]. cbn in X. lia.
  - intros X. apply (f_equal (@length N)) in X. rewrite !app_length in X. destruct name; [easy|]. destruct e; [easy|]. cbn in X. lia.
Qed.
Theorem C203_no_extension : forall g dir name, (dir = [] \/ exists d, dir = d ++ [47]) -> ~ In 47 name -> ~ In 46 name -> from_path g (dir ++ name) = None \/ name = [].
Proof.
  intros g dir name D N47 N46. destruct name as [|c name]; [now right|]. left. unfold from_path, extension. rewrite name_is; auto; try discriminate.
  - assert (X : forall s cur, ~ In 46 s -> after_dot s cur = None). { induction s as [|x s IH]; intros cur H; [reflexivity|]. cbn [after_dot]. replace (x =? 46) with false by (symmetry; apply N.eqb_neq; intros ->; apply H; now left). apply IH. intros I. apply H. now right. }
    rewrite X; [reflexivity|]. now rewrite <- in_rev.
  - intros X. apply N46. rewrite X. now left.
  - intros X. apply N46. rewrite X. now left.
Qed.
Example C203_example : map (from_path no_resolvers) [$"a/b.c/x.MP3"; $"x.tar.flac"; $".mp3"; $"dir.mp3/file"; $"a/.."; $"x."; $"dir.ogg/"; $"x.Mp+"] = [Some FMpeg; Some FFlac; None; None; None; None; Some FVorbis; Some FMpc].
Proof. reflexivity. Qed.

(** ** C204: which tags a format supports (SUPPORTED_FORMATS.md) *)
Definition documented (f : ftype) : list (tag_type * support) :=
  match f with
  | FAac => [(Id3v2, ReadWrite); (Id3v1, ReadWrite)]
  | FApe => [(Ape, ReadWrite); (Id3v2, ReadOnly); (Id3v1, ReadWrite)]
  | FAiff => [(Id3v2, ReadWrite); (AiffText, ReadWrite)]
  | FFlac => [(VorbisComments, ReadWrite); (Id3v2, ReadOnly)]
  | FMpeg => [(Id3v2, ReadWrite); (Id3v1, ReadWrite); (Ape, ReadWrite)]
  | FMp4 => [(Mp4Ilst, ReadWrite)]
  | FMpc => [(Ape, ReadWrite); (Id3v2, ReadOnly); (Id3v1, ReadOnly)]
  | FOpus | FVorbis | FSpeex => [(VorbisComments, ReadWrite)]
  | FWav => [(Id3v2, ReadWrite); (RiffInfo, ReadWrite)]
  | FWavPack => [(Ape, ReadWrite); (Id3v1, ReadWrite)]
  | FCustom _ => []
  end.
Definition builtin (f : ftype) : Prop := match f with FCustom _ => False | _ => True end.
Theorem C204_support : forall g f t s, builtin f -> (tag_support g f t = Ok s <-> (In (t, s) (documented f) \/ (s = Unsupported /\ forall s', ~ In (t, s') (documented f)))).
Proof.
  intros g f t s B. destruct f; try destruct B; destruct t, s; (split; [intros H; try discriminate H; first [left; cbn [documented In]; solve [auto 6] | right; split; [reflexivity|]; intros s'; cbn [documented In]; intuition discriminate]
    | intros [H|[H N]]; [cbn [documented In] in H; solve [reflexivity | intuition discriminate] | try discriminate H; try reflexivity; exfalso; eapply N; cbn [documented In]; solve [eauto 6]]]).
Qed.
Theorem C204_primary : forall g f, builtin f -> exists t, primary_tag_type g f = Ok t /\ tag_support g f t = Ok ReadWrite.
Proof. intros g f B. destruct f; try destruct B; eexists; split; reflexivity. Qed.
Theorem C204_custom : forall g name, match lookup g name with
  | Some r => primary_tag_type g (FCustom name) = Ok (rs_primary r) /\ forall t, tag_support g (FCustom name) t = Ok (rs_support r t)
  | None => primary_tag_type g (FCustom name) = Panic /\ forall t, tag_support g (FCustom name) t = Panic
  end.
Proof. intros g name. unfold primary_tag_type, tag_support. destruct (lookup g name); auto. Qed.
Theorem C204_register : forall g name r, (lookup g name = None -> exists g', register g name r = Some g' /\ lookup g' name = Some r /\ forall n, n <> name -> lookup g' n = lookup g n) /\ (lookup g name <> None -> register g name r = None).
Proof.
  intros g name r. split.
  - intros H. unfold register. rewrite H. eexists. split; [reflexivity|]. unfold lookup. cbn [rg_map find fst]. rewrite list_eqb_refl. split; [reflexivity|]. intros n NE. replace (list_eqb name n) with false by (symmetry; apply list_eqb_neq; auto). reflexivity.
  - intros H. unfold register. destruct (lookup g name); [reflexivity|easy].
Qed.
Example C204_example : tag_support no_resolvers FFlac Id3v2 = Ok ReadOnly /\ tag_support no_resolvers FMp4 Ape = Ok Unsupported /\ tag_support no_resolvers (FCustom ($"x")) Ape = Panic.
Proof. now repeat split. Qed.

(** ** C205: a file read with a limit for junk is searched up to that limit. Tagged files are guessed before the options are set. *)
Theorem C205_probe : forall g junk u, guess_file_type g (set_options junk (probe_new u)) = let? (f, u') := guess_inner g junk u in Ok (mkPb u' (Some junk) f).
Proof. intros g junk u. unfold guess_file_type. cbn. destruct (guess_inner g junk u) as [[[f|] u']|?|]; reflexivity. Qed.
Theorem C205_tagged_ignores : forall g j1 j2 u, tagged_read_type g j1 u = tagged_read_type g j2 u.
Proof. intros g j1 j2 u. unfold tagged_read_type. destruct (guess_file_type g (probe_new u)); reflexivity. Qed.
Theorem C205_tagged_refuted : exists junk d, guess_inner no_resolvers junk (at_start d) = Ok (Some FMpeg, at_start d) /\ tagged_read_type no_resolvers junk (at_start d) = Err tt.
Proof. exists 2048, late. split; vm_compute; reflexivity. Qed.
(** A limit below the default does not limit, either. *)
Theorem C205_below_refuted : exists d, guess_inner no_resolvers 0 (at_start d) = Ok (None, at_start d) /\ tagged_read_type no_resolvers 0 (at_start d) = Ok (FMpeg, at_start d).
Proof. exists ([0] ++ audio_of [frame0]). split; vm_compute; reflexivity. Qed.
Example C205_example : guess_file_type no_resolvers (set_options 3 (probe_new (at_start [0; 0xFF; 0xFB]))) = Ok (mkPb (at_start [0; 0xFF; 0xFB]) (Some 3) (Some FMpeg)).
Proof. reflexivity. Qed.

Print Assumptions C198_magic.
Print Assumptions C198_sound.
Print Assumptions C199_behind_tag.
Print Assumptions C200_junk.
Print Assumptions C201_position.
Print Assumptions C201_local.
Print Assumptions C202_wav.
Print Assumptions C202_mp4_partial.
Print Assumptions C202_flac.
Print Assumptions C203_extensions.
Print Assumptions C203_path.
Print Assumptions C204_support.
Print Assumptions C205_tagged_ignores.
