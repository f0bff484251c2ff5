(** AIFF text chunks; WAV and AIFF properties; reading never panics. *)
From Verif Require Import BaseLemmas StrLemmas TextProof MathModel IffModel IffSpec IffProof IffProof2 IffProof3 IffProof4 IffProof5 AiffModel AiffProof AiffProof2 AiffProof3.

(** ** C107: AIFF text chunks written and read *)
Definition no_id3 : bytes -> res iff_error unit := fun _ => Ok tt.
Definition reads_text (m : pmode) (data : bytes) (t : option aiff_text) : Prop :=
  exists f, aiff_read no_id3 (fun a _ => a) m true false data = Ok f /\ af_text f = t.
Lemma take_plain : forall m cs acc, Forall (fun c => not_text c = true) cs -> Forall (fun c => is_strict m = true -> id3_id (fst c) = true -> 10 <= lenN (snd c)) cs ->
  exists acc', take_all no_id3 (fun a _ => a) m true false cs acc = Ok acc'.
Proof.
  intros m cs. induction cs as [|c cs IH]; intros acc NT ID; cbn [take_all]; eauto. inversion NT as [|? ? NC NT']; inversion ID as [|? ? IC ID']; subst.
  assert (T1 : exists a1, take1 no_id3 (fun a _ => a) m true false c acc = Ok a1).
  { unfold take1. destruct acc as [comm stream name author copy anno comments tag]. unfold not_text, is_text_id in NC. unfold id3_id in IC. apply negb_true_iff in NC. rewrite !orb_false_iff in NC. destruct NC as [[[[N1 N2] N3] N4] N5].
    rewrite ?N1, ?N2, ?N3, ?N4, ?N5. cbn [andb]. rewrite ?andb_true_r, ?andb_false_r.
    destruct (list_eqb (fst c) ($"ID3 ") || list_eqb (fst c) ($"id3 ")).
    - destruct (N.ltb_spec (lenN (snd c)) 10); [|cbn; eauto]. destruct (is_strict m) eqn:E; eauto. specialize (IC eq_refl eq_refl). lia.
    - cbn [andb]. rewrite ?andb_false_r. eauto. }
  destruct T1 as [a1 ->]. cbn [bind]. now apply IH.
Qed.
(** Chunks that hold no text; in strict mode ID3v2 chunks must be large enough to have a header. *)
Definition other (m : pmode) (c : bytes * bytes) : Prop := chunk_ok c /\ not_text c = true /\ (is_strict m = true -> id3_id (fst c) = true -> 10 <= lenN (snd c)).
Theorem C107_roundtrip : forall m kind a b junk size t, aiff_kind kind -> Forall (other m) (a ++ b) -> lenN junk < 8 -> text_ok t ->
  match at_comments t with Some l => only_last_odd l | None => True end ->
  reads_text m (hdr true ($"FORM") size kind ++ body true (a ++ text_chunks t ++ b) ++ junk) (norm_text t).
Proof.
  intros m kind a b junk size t K O J TO LO. unfold reads_text. apply Forall_app in O as [O1 O2].
  assert (C : Forall chunk_ok (a ++ text_chunks t ++ b)). { apply Forall_app. split. eapply Forall_impl; [|exact O1]. intros c H; apply H. apply Forall_app. split. now apply text_chunks_ok. eapply Forall_impl; [|exact O2]. intros c H; apply H. }
  rewrite aiff_read_spec by auto.
  assert (N1 : Forall (fun c => not_text c = true) a) by (eapply Forall_impl; [|exact O1]; intros c H; apply H).
  assert (N2 : Forall (fun c => not_text c = true) b) by (eapply Forall_impl; [|exact O2]; intros c H; apply H).
  assert (E : exists acc, take_all no_id3 (fun a _ => a) m true false (a ++ text_chunks t ++ b) acc0 = Ok acc).
  { rewrite take_app. destruct (take_plain m a acc0 N1) as [x X]. { eapply Forall_impl; [|exact O1]. intros c H; apply H. } rewrite X. cbn [bind]. rewrite take_app.
    assert (TX := take_others no_id3 (fun a _ => a) m true false a acc0 x N1 X). destruct x as [comm stream name author copy anno comments tag]. unfold texts in TX. cbn in TX. inversion TX; subst.
    rewrite take_texts by auto. cbn [bind]. apply take_plain; auto. eapply Forall_impl; [|exact O2]. intros c H; apply H. }
  destruct E as [acc E]. rewrite E. cbn [bind]. eexists. split. reflexivity. cbn [af_text]. exact (texts_back no_id3 (fun a _ => a) m false a b t acc N1 N2 TO LO E).
Qed.
Definition text1 : aiff_text := mkAt (Some ($"Name")) None (Some ($"me")) (Some [$"one"; $"two"]) (Some [mkComt 5 6 ($"even"); mkComt 7 8 ($"odd")]).
Example C107_ex : text_ok text1 /\ norm_text text1 = Some text1 /\ reads_text Strict (form_file ($"AIFF") ([($"COMM", [1])] ++ text_chunks text1 ++ [($"SSND", [3])])) (Some text1).
Proof.
  assert (V : forall s, forallb (fun b => (b <? 128) && negb (b =? 0)) s = true -> str_ok s /\ last s 1 <> 0 /\ utf8_enc s = s).
  { intros s H. rewrite forallb_forall in H. assert (A : Forall (fun b => b < 128) s) by (apply Forall_forall; intros x I; specialize (H x I); apply andb_true_iff in H as [H _]; lia). split; [|split].
    - eapply Forall_impl; [|exact A]. intros x X. apply scalar_bound. cbv beta in X. lia.
    - destruct (list_eq_dec N.eq_dec s []) as [->|NE]; [discriminate|]. destruct (exists_last NE) as (l & x & ->). rewrite last_last. specialize (H x ltac:(apply in_or_app; right; left; reflexivity)). apply andb_true_iff in H as [_ H]. apply negb_true_iff, N.eqb_neq in H. exact H.
    - now apply ascii_enc. }
  split; [|split; [reflexivity|eexists; split; vm_compute; reflexivity]].
  assert (VO : forall s, forallb (fun b => (b <? 128) && negb (b =? 0)) s = true -> lenN s < 2 ^ 16 -> value_ok s /\ (str_ok s /\ last s 1 <> 0 /\ lenN (utf8_enc s) < 2 ^ 16)).
  { intros s H L. destruct (V s H) as (A & B & C). unfold value_ok. rewrite C. change (2 ^ 32) with 4294967296. change (2 ^ 16) with 65536 in *. repeat split; auto. lia. }
  unfold text_ok. cbn [at_name at_author at_copy at_anno at_comments text1 opt_ok].
  split; [apply VO; reflexivity|]. split; [exact I|]. split; [apply VO; reflexivity|]. split.
  { constructor; [apply VO; reflexivity|]. constructor; [apply VO; reflexivity|constructor]. }
  split; [|split; reflexivity]. constructor; [|constructor; [|constructor]]; (split; [reflexivity|]); (split; [reflexivity|]); cbn [ct_text]; apply VO; reflexivity.
Qed.
(** The writer pads each comment to an even size, the reader does not know: after an odd comment the next one is wrong. *)
Theorem C107_odd_comment_refuted : let t := mkAt None None None None (Some [mkComt 1 2 ($"odd"); mkComt 3 4 ($"next")]) in
  ~ reads_text Strict (form_file ($"AIFF") ([($"COMM", [1])] ++ text_chunks t)) (norm_text t).
Proof. intros t (f & R & E). vm_compute in R. first [discriminate R | inversion R; subst; discriminate E]. Qed.

(** ** C108: saving AIFF text chunks *)
Definition saves_text (m : pmode) (data : bytes) (t : aiff_text) (new : bytes) : Prop := exists ops, write_aiff_text m data t = Ok ops /\ apply_log data ops = new.
(** No text yet: the chunks go behind the last COMM chunk. *)
Theorem C108_new_text : forall m kind t a c b, aiff_kind kind -> text_ok t -> Forall chunk_ok (a ++ c :: b) -> Forall (fun c => not_text c = true) (a ++ c :: b) -> fst c = $"COMM" -> Forall (fun c => fst c <> $"COMM") b ->
  4 + lenN (body true (a ++ c :: text_chunks t ++ b)) < 2 ^ 32 ->
  saves_text m (form_file kind (a ++ c :: b)) t (form_file kind (a ++ c :: text_chunks t ++ b)).
Proof.
  intros m kind t a c b K TO O NT CM NC L. assert (S := save_text_new m kind [] t K eq_refl TO a c b O NT CM NC). rewrite lenN_nil, N.add_0_r, !app_nil_r in S. assert (H := iff_head true ($"FORM") kind (a ++ c :: text_chunks t ++ b) []). rewrite !app_nil_r in H. unfold saves_text, form_file in *. rewrite H. exact (S L).
Qed.
(** The first text chunk makes place for the new ones, the others are removed, all other chunks stay in order. *)
Theorem C108_text_replaced : forall m kind t a c b, aiff_kind kind -> text_ok t -> Forall chunk_ok (a ++ c :: b) -> Forall (fun c => not_text c = true) a -> is_text_id (fst c) = true -> Exists (fun c => fst c = $"COMM") (a ++ c :: b) ->
  4 + lenN (body true (a ++ text_chunks t ++ filter not_text b)) < 2 ^ 32 ->
  saves_text m (form_file kind (a ++ c :: b)) t (form_file kind (a ++ text_chunks t ++ filter not_text b)).
Proof.
  intros m kind t a c b K TO O NT CM EX L. assert (S := save_text_old m kind [] t K eq_refl TO a c b O NT CM EX). rewrite lenN_nil, N.add_0_r, !app_nil_r in S. assert (H := iff_head true ($"FORM") kind (a ++ text_chunks t ++ filter not_text b) []). rewrite !app_nil_r in H. unfold saves_text, form_file in *. rewrite H. exact (S L).
Qed.
(** Saved and read again: the tag, in its normal form. *)
Theorem C108_read_back : forall m m' kind t a c b, aiff_kind kind -> text_ok t -> match at_comments t with Some l => only_last_odd l | None => True end ->
  Forall (other m') (a ++ [c] ++ b) -> fst c = $"COMM" -> Forall (fun c => fst c <> $"COMM") b -> 4 + lenN (body true (a ++ c :: text_chunks t ++ b)) < 2 ^ 32 ->
  exists ops, write_aiff_text m (form_file kind (a ++ c :: b)) t = Ok ops /\ reads_text m' (apply_log (form_file kind (a ++ c :: b)) ops) (norm_text t).
Proof.
  intros m m' kind t a c b K TO LO O CM NC L.
  destruct (C108_new_text m kind t a c b K TO) as (ops & W & R); auto. { eapply Forall_impl; [|exact O]. intros x H; apply H. } { eapply Forall_impl; [|exact O]. intros x H; apply H. }
  exists ops. split; auto. rewrite R. assert (H := iff_head true ($"FORM") kind (a ++ c :: text_chunks t ++ b) []). rewrite !app_nil_r in H. unfold form_file. rewrite H.
  replace (a ++ c :: text_chunks t ++ b) with ((a ++ [c]) ++ text_chunks t ++ b) by (rewrite <- app_assoc; reflexivity). rewrite <- (app_nil_r (body true _)). apply C107_roundtrip; auto. rewrite <- app_assoc. exact O. reflexivity.
Qed.
Example C108_ex : saves_text Strict (form_file ($"AIFC") [($"COMM", [1]); ($"NAME", [66]); ($"SSND", [3]); ($"ANNO", [67; 68])]) (mkAt (Some ($"A")) None None None None)
  (form_file ($"AIFC") [($"COMM", [1]); ($"NAME", [65]); ($"SSND", [3])]).
Proof. eexists. split; vm_compute; reflexivity. Qed.
(** Up to 7 bytes behind the FORM chunk stay, but are counted into its size. *)
Theorem C108_trailing_refuted : forall m kind t a c b junk, aiff_kind kind -> text_ok t -> Forall chunk_ok (a ++ c :: b) -> Forall (fun c => not_text c = true) (a ++ c :: b) -> fst c = $"COMM" -> Forall (fun c => fst c <> $"COMM") b ->
  4 + lenN (body true (a ++ c :: text_chunks t ++ b)) + lenN junk < 2 ^ 32 -> junk <> [] -> lenN junk < 8 ->
  saves_text m (form_file kind (a ++ c :: b) ++ junk) t (hdr true ($"FORM") (4 + lenN (body true (a ++ c :: text_chunks t ++ b)) + lenN junk) kind ++ body true (a ++ c :: text_chunks t ++ b) ++ junk) /\
  ~ saves_text m (form_file kind (a ++ c :: b) ++ junk) t (form_file kind (a ++ c :: text_chunks t ++ b) ++ junk).
Proof.
  intros m kind t a c b junk K TO O NT CM NC L NE J. destruct (save_text_new m kind junk t K J TO a c b O NT CM NC L) as (ops & W & R). split. { exists ops. auto. }
  intros (ops2 & W2 & R2). rewrite W in W2. inversion W2; subst ops2. rewrite R in R2. unfold form_file in R2. rewrite iff_head in R2. apply app_inv_tail in R2. unfold hdr in R2. apply app_inv_head in R2. apply app_inv_tail in R2.
  apply (f_equal (dec32 true)) in R2. rewrite !dec_size in R2 by lia. assert (lenN junk <> 0) by (intro Z; apply lenN_0 in Z; contradiction). lia.
Qed.

(** ** C110: WAV properties *)
Definition fmt_chunk (tag channels rate byterate align bits : N) : bytes :=
  le_enc 2 tag ++ le_enc 2 channels ++ le_enc 4 rate ++ le_enc 4 byterate ++ le_enc 2 align ++ le_enc 2 bits.
Definition nearest (a b : N) : N := (a + b / 2) / b.
Lemma fmt_read : forall tag channels rate byterate align bits more, tag < 2 ^ 16 -> tag <> 0xFFFE -> channels < 2 ^ 16 -> rate < 2 ^ 32 -> byterate < 2 ^ 32 -> align < 2 ^ 16 -> bits < 2 ^ 16 ->
  read_fmt (fmt_chunk tag channels rate byterate align bits ++ more) = Ok (mkFmt tag (channels mod 256) rate byterate align bits None).
Proof.
  intros tag channels rate byterate align bits more T TN C R B A BI. unfold fmt_chunk. rewrite <- !app_assoc. unfold read_fmt, read_le.
  rewrite (read_exact_app 2 (le_enc 2 tag)) by apply le_enc_len. cbn [iord bind]. rewrite (read_exact_app 2 (le_enc 2 channels)) by apply le_enc_len. cbn [iord bind].
  rewrite (read_exact_app 4 (le_enc 4 rate)) by apply le_enc_len. cbn [iord bind]. rewrite (read_exact_app 4 (le_enc 4 byterate)) by apply le_enc_len. cbn [iord bind].
  rewrite (read_exact_app 2 (le_enc 2 align)) by apply le_enc_len. cbn [iord bind]. rewrite (read_exact_app 2 (le_enc 2 bits)) by apply le_enc_len. cbn [iord bind].
  rewrite !le_dec_enc by assumption. destruct (N.eqb_spec tag 65534); [contradiction|]. reflexivity.
Qed.
(** A PCM (1) or float (3) file: the number of samples is that of the data chunk, whatever a fact chunk says. *)
Theorem C110_pcm : forall tag channels rate byterate align bits more facts stream file, tag = 1 \/ tag = 3 -> 1 <= channels < 256 -> 1 <= rate < 2 ^ 32 -> 63 <= byterate < 2 ^ 29 -> align < 2 ^ 16 -> 8 <= bits < 256 -> bits mod 8 = 0 ->
  channels * (bits / 8) <= stream < 2 ^ 32 -> file < 2 ^ 32 ->
  let samples := stream / (channels * (bits / 8)) in
  let ms := nearest (samples * 1000) rate in
  wav_properties (fmt_chunk tag channels rate byterate align bits ++ more) facts stream file =
  Ok (mkWp (if tag =? 1 then WPcm else WFloat) ms (if ms =? 0 then 0 else nearest (file * 8) ms mod 2 ^ 32) (nearest (byterate * 8) 1000) rate bits channels None).
Proof.
  intros tag channels rate byterate align bits more facts stream file TG C R B A BI BM ST FI samples ms. change (2 ^ 32) with 4294967296 in *. change (2 ^ 29) with 536870912 in *. unfold wav_properties.
  assert (BPS : 1 <= bits / 8) by (apply N.div_le_lower_bound; lia).
  assert (LF : lenN (fmt_chunk tag channels rate byterate align bits ++ more) <? 16 = false). { rewrite lenN_app. unfold fmt_chunk. rewrite !lenN_app, !le_enc_len. apply N.ltb_ge. lia. } rewrite LF.
  destruct (N.eqb_spec stream 0); [nia|].
  rewrite fmt_read by (try (change (2 ^ 16) with 65536); try (change (2 ^ 32) with 4294967296); lia). cbn [bind m_channels m_bits m_align m_ext m_tag m_byterate m_rate].
  rewrite (N.mod_small channels 256) by lia. destruct (N.eqb_spec channels 0); [lia|]. rewrite BM. cbn [N.eqb negb]. change (0 =? 0) with true. cbn [negb].
  assert (PC : ((tag =? 1) || (tag =? 3)) = true) by (destruct TG; subst; reflexivity). rewrite PC. cbn [negb andb]. rewrite orb_true_r.
  destruct (N.ltb_spec 0 bits); [|lia]. cbn [andb]. fold samples. destruct (N.ltb_spec 0 byterate); [|lia].
  rewrite div64r_ok by (try reflexivity; change (2 ^ 64) with 18446744073709551616; lia). cbn [bind]. fold (nearest (byterate * 8) 1000).
  assert (NB : nearest (byterate * 8) 1000 < 4294967296) by (unfold nearest; apply N.div_lt_upper_bound; [lia|]; change (1000 / 2) with 500; lia).
  assert (AE : as_u32 (nearest (byterate * 8) 1000) = nearest (byterate * 8) 1000) by (unfold as_u32; apply N.mod_small; exact NB). rewrite AE.
  assert (S1 : 1 <= samples) by (unfold samples; apply N.div_le_lower_bound; nia). assert (S2 : samples <= stream) by (unfold samples; apply N.div_le_upper_bound; nia).
  destruct (N.ltb_spec 0 rate); [|lia]. destruct (N.ltb_spec 0 samples); [|lia]. cbn [andb].
  rewrite div64r_ok by (try lia; change (2 ^ 64) with 18446744073709551616; lia). cbn [bind]. fold (nearest (samples * 1000) rate). fold ms.
  assert (MB : ms < 8 * 2 ^ 42). { change (8 * 2 ^ 42) with 35184372088832. unfold ms, nearest. apply N.div_lt_upper_bound; [lia|]. assert (rate / 2 <= rate) by (apply N.div_le_upper_bound; lia). nia. }
  change (8 * 2 ^ 42) with 35184372088832 in MB. change U64_MAX with 18446744073709551615.
  assert (FMT : (if tag =? 1 then WPcm else if tag =? 3 then WFloat else WOther tag) = if tag =? 1 then WPcm else WFloat) by (destruct TG; subst; reflexivity). rewrite FMT.
  assert (D : as_u8 bits = bits) by (unfold as_u8; apply N.mod_small; change (2 ^ 8) with 256; lia). rewrite D.
  destruct (N.ltb_spec 0 ms); destruct (N.eqb_spec ms 0); try lia; cbn [bind]; [|reflexivity].
  destruct (N.ltb_spec 18446744073709551615 (file * 8)); [lia|]. rewrite div64r_ok by (try lia; change (2 ^ 64) with 18446744073709551616; lia). cbn [bind]. fold (nearest (file * 8) ms).
  assert (NZ : 1 <= nearest (byterate * 8) 1000) by (unfold nearest; apply N.div_le_lower_bound; [lia|]; change (1000 / 2) with 500; lia).
  destruct (N.eqb_spec (nearest (byterate * 8) 1000) 0) as [Z|Z]; [lia|]. reflexivity.
Qed.
Example C110_ex : wav_properties (fmt_chunk 1 2 44100 176400 4 16) 0 352800 352844 = Ok (mkWp WPcm 2000 1411 1411 44100 16 2 None).
Proof. vm_compute. reflexivity. Qed.
(** In a whole file: the first format chunk, the first data chunk and the size of the file are used. *)
Theorem C110_file : forall m a f b d c junk tag channels rate byterate align bits more, let ws := map WChunk (a ++ ($"fmt ", f) :: b ++ ($"data", d) :: c) in
  Forall (wchunk_ok m) ws -> with_id ($"fmt ") (map WChunk a) = [] -> with_id ($"data") (map WChunk (a ++ b)) = [] -> lenN junk < 8 ->
  f = fmt_chunk tag channels rate byterate align bits ++ more -> 12 + lenN (body false (map to_chunk ws)) < 2 ^ 32 ->
  tag = 1 \/ tag = 3 -> 1 <= channels < 256 -> 1 <= rate < 2 ^ 32 -> 63 <= byterate < 2 ^ 29 -> align < 2 ^ 16 -> 8 <= bits < 256 -> bits mod 8 = 0 -> channels * (bits / 8) <= lenN d ->
  let ms := nearest (lenN d / (channels * (bits / 8)) * 1000) rate in
  exists x, wav_read no_id3 (fun a _ => a) m false true (riff_file (map to_chunk ws) ++ junk) = Ok x /\
  wf_props x = Some (mkWp (if tag =? 1 then WPcm else WFloat) ms (if ms =? 0 then 0 else nearest (lenN (riff_file (map to_chunk ws)) * 8) ms mod 2 ^ 32) (nearest (byterate * 8) 1000) rate bits channels None).
Proof.
  intros m a f b d c junk tag channels rate byterate align bits more ws W NF ND J EF L TG C R B A BI BM ST ms.
  assert (LW : with_id ($"fmt ") ws = f :: with_id ($"fmt ") (map WChunk (b ++ ($"data", d) :: c))). { unfold ws, with_id in *. rewrite map_app, flat_map_app. rewrite NF. reflexivity. }
  assert (LD : exists rest, with_id ($"data") ws = d :: rest). { unfold ws, with_id in *. rewrite map_app, flat_map_app in ND. apply app_eq_nil in ND as [N1 N2]. rewrite map_app, flat_map_app, N1. cbn [map flat_map app fst snd]. change (list_eqb ($"fmt ") ($"data")) with false. rewrite map_app, flat_map_app, N2. cbn [app map flat_map fst snd]. change (list_eqb ($"data") ($"data")) with true. eexists. reflexivity. }
  destruct LD as [rest LD]. rewrite wav_read_spec by (auto; lia). cbn [join_if bind]. rewrite LW, LD. cbn [map first_nonempty first_nonzero].
  assert (LF : 16 <= lenN f) by (subst f; unfold fmt_chunk; rewrite !lenN_app, !le_enc_len; lia). destruct (N.eqb_spec (lenN f) 0); [lia|].
  assert (DZ : 1 <= lenN d). { assert (1 <= bits / 8) by (apply N.div_le_lower_bound; lia). nia. } destruct (N.eqb_spec (lenN d) 0); [lia|]. subst f.
  assert (BL : lenN (riff_file (map to_chunk ws)) = 12 + lenN (body false (map to_chunk ws))) by (assert (X := riff_len (map to_chunk ws) []); rewrite app_nil_r, lenN_nil in X; lia).
  assert (DB : lenN d < 2 ^ 32). { assert (I : In (WChunk ($"data", d)) ws) by (unfold ws; apply in_map; apply in_or_app; right; right; apply in_or_app; right; left; reflexivity). rewrite Forall_forall in W. specialize (W _ I). destruct W as [[_ W] _]. exact W. }
  rewrite (C110_pcm tag channels rate byterate align bits more _ (lenN d) (lenN (riff_file (map to_chunk ws)))); auto. 2: lia.
  cbn [bind]. eexists. split. reflexivity. reflexivity.
Qed.
(** The number of channels is cut to 8 bits: 258 channels are read as 2, 256 are an error. *)
Theorem C110_channels_refuted : (exists p, wav_properties (fmt_chunk 1 258 44100 22755600 516 16) 0 516 1000 = Ok p /\ wp_channels p = 2) /\
  wav_properties (fmt_chunk 1 256 44100 22579200 512 16) 0 512 1000 = Err (IMessage 4).
Proof. split. eexists. split; vm_compute; reflexivity. vm_compute. reflexivity. Qed.

(** ** C111: AIFF properties *)
Definition comm_chunk (channels frames size rate : N) : bytes := be_enc 2 channels ++ be_enc 4 frames ++ be_enc 2 size ++ f80_of rate.
(** Channels, sample size and a whole sample rate are exact; the duration is the number of whole milliseconds. *)
Theorem C111_properties : forall channels frames size rate more aifc stream file p, 1 <= channels < 2 ^ 16 -> 1 <= frames < 2 ^ 32 -> size < 2 ^ 16 -> 1 <= rate < 2 ^ 32 ->
  aiff_properties (comm_chunk channels frames size rate ++ more) aifc stream file = Ok p ->
  ap_channels p = channels /\ ap_size p = size /\ ap_rate p = rate /\ ap_duration p = frames * 1000 / rate.
Proof.
  intros channels frames size rate more aifc stream file p C F S R H. unfold aiff_properties, comm_chunk in H. rewrite <- !app_assoc in H. unfold read_be in H.
  rewrite (read_exact_app 2 (be_enc 2 channels)) in H by apply be_enc_len. cbn [iord bind] in H. rewrite (be_dec_enc 2 channels) in H by apply C. destruct (N.eqb_spec channels 0); [lia|].
  rewrite (read_exact_app 4 (be_enc 4 frames)) in H by apply be_enc_len. cbn [iord bind] in H. rewrite (read_exact_app 2 (be_enc 2 size)) in H by apply be_enc_len. cbn [iord bind] in H.
  assert (L10 : lenN (f80_of rate) = 10) by (unfold f80_of; rewrite lenN_app, !be_enc_len; reflexivity). rewrite (read_exact_app 10 (f80_of rate)) in H by exact L10. cbn [iord bind] in H.
  rewrite (be_dec_enc 4 frames) in H by apply F. rewrite (be_dec_enc 2 size) in H by exact S.
  destruct (rate_exact rate ltac:(lia) ltac:(apply R)) as (FF & FP & RE). rewrite FF, FP, RE in H. cbn [negb orb] in H.
  assert (D := duration_floor frames rate stream file ltac:(lia) ltac:(apply F) ltac:(lia) ltac:(apply R)). destruct (aiff_times frames rate stream file) as [[d o] au]. cbn [fst] in D. subst d.
  destruct (negb _). { inversion H; subst. cbn. auto. }
  destruct (read_exact 4 more) as [[ty r]|]; cbn [iord bind] in H; [|discriminate].
  match type of H with (bind ?x _ = _) => destruct x as [comp| |] end; cbn [bind] in H; try discriminate. inversion H; subst. cbn. auto.
Qed.
Lemma plain_props : forall channels frames size f stream file, 1 <= channels < 2 ^ 16 -> frames < 2 ^ 32 -> size < 2 ^ 16 -> lenN f = 10 ->
  let bits := f80_as_f64 (f80_from_be f) in let rate := N.min U32_MAX (f64_round_int (f64_value bits)) in
  f64_finite bits = true -> f64_positive bits = true ->
  exists d o a, aiff_properties (be_enc 2 channels ++ be_enc 4 frames ++ be_enc 2 size ++ f) false stream file = Ok (mkAp d o a rate size channels None).
Proof.
  intros channels frames size f stream file C F S L bits rate FF FP. unfold aiff_properties. unfold read_be.
  rewrite (read_exact_app 2 (be_enc 2 channels)) by apply be_enc_len. cbn [iord bind]. rewrite (be_dec_enc 2 channels) by apply C. destruct (N.eqb_spec channels 0); [lia|].
  rewrite (read_exact_app 4 (be_enc 4 frames)) by apply be_enc_len. cbn [iord bind]. rewrite (read_exact_app 2 (be_enc 2 size)) by apply be_enc_len. cbn [iord bind].
  rewrite <- (app_nil_r f), (read_exact_app 10 f) by exact L. cbn [iord bind]. rewrite (be_dec_enc 4 frames) by exact F. rewrite (be_dec_enc 2 size) by exact S. fold bits. cbv zeta. rewrite FF, FP. cbn [negb orb]. fold rate.
  destruct (aiff_times frames rate stream file) as [[d o] a]. rewrite Bool.andb_false_r. cbn [negb]. eauto.
Qed.
(** The duration is cut, not rounded (the WAV reader and the other formats round). *)
Theorem C111_duration_refuted : exists p, aiff_properties (comm_chunk 2 48047 16 48000) false 192188 192242 = Ok p /\ ap_duration p = 1000 /\ nearest (48047 * 1000) 48000 = 1001.
Proof.
  destruct (rate_exact 48000 ltac:(lia) ltac:(reflexivity)) as (FF & FP & _).
  destruct (plain_props 2 48047 16 (f80_of 48000) 192188 192242) as (d & o & a & E); try reflexivity; try exact FF; try exact FP; [split; [discriminate|reflexivity]|]. eexists. split; [exact E|].
  unfold comm_chunk in *. pose proof (fun q => C111_properties 2 48047 16 48000 [] false 192188 192242 q ltac:(split; [discriminate|reflexivity]) ltac:(split; [discriminate|reflexivity]) ltac:(reflexivity) ltac:(split; [discriminate|reflexivity])) as P.
  specialize (P _ ltac:(unfold comm_chunk; rewrite app_nil_r; exact E)). clear E. rename P into E. destruct E as (_ & _ & _ & ->). split; vm_compute; reflexivity.
Qed.
Example C111_ex : exists p, aiff_properties (comm_chunk 2 88200 16 44100) false 352800 352854 = Ok p /\ ap_channels p = 2 /\ ap_size p = 16 /\ ap_rate p = 44100 /\ ap_duration p = 2000.
Proof.
  destruct (rate_exact 44100 ltac:(lia) ltac:(reflexivity)) as (FF & FP & _).
  destruct (plain_props 2 88200 16 (f80_of 44100) 352800 352854) as (d & o & a & E); try reflexivity; try exact FF; try exact FP; [split; [discriminate|reflexivity]|]. eexists. split; [exact E|].
  pose proof (fun q => C111_properties 2 88200 16 44100 [] false 352800 352854 q ltac:(split; [discriminate|reflexivity]) ltac:(split; [discriminate|reflexivity]) ltac:(reflexivity) ltac:(split; [discriminate|reflexivity])) as P.
  specialize (P _ ltac:(unfold comm_chunk; rewrite app_nil_r; exact E)). clear E. rename P into E. exact E.
Qed.
(** A rate with the 80-bit exponent out of range of the code's conversion: 2^4106 Hz is accepted as 1024 Hz. *)
Theorem C111_rate_refuted : exists p, aiff_properties (be_enc 2 1 ++ be_enc 4 10 ++ be_enc 2 16 ++ be_enc 2 (16383 + 4106) ++ be_enc 8 (2 ^ 63)) false 20 74 = Ok p /\ ap_rate p = 1024.
Proof.
  destruct (plain_props 1 10 16 (be_enc 2 (16383 + 4106) ++ be_enc 8 (2 ^ 63)) 20 74) as (d & o & a & E); try (vm_compute; reflexivity); [split; [discriminate|reflexivity]|]. eexists. split; [exact E|]. vm_compute. reflexivity.
Qed.

(** ** C112: reading never panics *)
Theorem C112_wav : forall T (id3 : bytes -> res iff_error T) join m tags props data, (forall b, id3 b <> Panic) -> bytes_ok data -> lenN data < 2 ^ 57 -> wav_read id3 join m tags props data <> Panic.
Proof. exact wav_read_total. Qed.
Theorem C112_aiff : forall T (id3 : bytes -> res iff_error T) join m tags props data, (forall b, id3 b <> Panic) -> aiff_read id3 join m tags props data <> Panic.
Proof. exact aiff_read_total. Qed.
Example C112_ex : wav_read no_id3 (fun a _ => a) Relaxed true true ($"RIFF" ++ [255; 255; 255; 255] ++ $"WAVE" ++ $"LIST" ++ [255; 0; 0; 0] ++ [0]) = Err (IMessage 2) /\
  aiff_read no_id3 (fun a _ => a) Relaxed true true ($"FORM" ++ [0; 0; 0; 0] ++ $"AIFF" ++ $"COMT" ++ [0; 0; 0; 9] ++ $"12345") = Err IEof.
Proof. split; vm_compute; reflexivity. Qed.

Print Assumptions C107_roundtrip. Print Assumptions C107_odd_comment_refuted. Print Assumptions C108_new_text. Print Assumptions C108_text_replaced. Print Assumptions C108_read_back. Print Assumptions C108_trailing_refuted.
Print Assumptions C110_pcm. Print Assumptions C110_file. Print Assumptions C110_channels_refuted. Print Assumptions C111_properties. Print Assumptions C111_duration_refuted. Print Assumptions C111_rate_refuted.
Print Assumptions C112_wav. Print Assumptions C112_aiff.
