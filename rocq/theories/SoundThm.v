(** * C248: saving a tag does not change what is read about the audio *)
From Verif Require Import BaseLemmas StrLemmas IffModel IffSpec IffProof IffProof2 IffProof3 IffProof4 IffProof5 AiffModel AiffProof AiffProof2 IffThm2 AiffThm ChunkTagModel GenericChunkThm.
From Verif Require IffThm.

(** ** WAV: everything but the overall bit rate *)
Definition same_wav (p q : wav_props) : Prop := exists overall, q = mkWp (wp_format p) (wp_duration p) overall (wp_audio p) (wp_rate p) (wp_depth p) (wp_channels p) (wp_mask p).
(** The properties alone are read, in mode [m]. *)
Definition wav_sound (m : pmode) (data : bytes) (p : wav_props) : Prop := exists f, wav_read (T := unit) IffThm.no_id3 (fun a _ => a) m false true data = Ok f /\ wf_props f = Some p.

Lemma div64r_err : forall a b e, div64r a b <> Err e.
Proof. intros a b e. unfold div64r. destruct (MathModel.div_round _ _ _); discriminate. Qed.
Lemma wav_properties_same : forall fmt total stream file file' p, wav_properties fmt total stream file = Ok p -> wav_properties fmt total stream file' <> Panic ->
  exists q, wav_properties fmt total stream file' = Ok q /\ same_wav p q.
Proof.
  intros fmt total stream file file' p H NP. unfold same_wav. unfold wav_properties in *.
  destruct (lenN fmt <? 16); [discriminate|]. destruct (stream =? 0); [discriminate|]. destruct (read_fmt fmt) as [f| |]; cbn [bind] in *; try discriminate.
  destruct (m_channels f =? 0); [discriminate|]. destruct (negb (m_bits f mod 8 =? 0)); [discriminate|].
  destruct (_ && (total =? 0)); [discriminate|].
  match type of H with (let? _ := ?e in _) = _ => destruct e as [a| |]; cbn [bind] in *; try discriminate end.
  destruct ((0 <? m_rate f) && _).
  - destruct (div64r _ (m_rate f)) as [len| |]; cbn [bind] in *; try discriminate. destruct (0 <? len); cbn [bind] in *.
    + destruct (U64_MAX <? file * 8); [discriminate|]. destruct (U64_MAX <? file' * 8); [exfalso; now apply NP|].
      destruct (div64r (file * 8) len) as [o| |]; cbn [bind] in *; try discriminate.
      destruct (div64r (file' * 8) len) as [o'|e|] eqn:E; cbn [bind] in *; [|now apply div64r_err in E|exfalso; now apply NP].
      match type of H with (let? _ := (let? _ := ?e in _) in _) = _ => destruct e as [a'| |]; cbn [bind] in *; try discriminate end. inversion H; subst p. cbn. eauto.
    + inversion H; subst p. cbn. eauto.
  - destruct ((0 <? stream) && _); cbn [bind] in *.
    + destruct (div64r _ (m_byterate f)) as [len| |]; cbn [bind] in *; try discriminate. destruct (0 <? len); cbn [bind] in *.
      * destruct (U64_MAX <? file * 8); [discriminate|]. destruct (U64_MAX <? file' * 8); [exfalso; now apply NP|].
        destruct (div64r (file * 8) len) as [o| |]; cbn [bind] in *; try discriminate.
        destruct (div64r (file' * 8) len) as [o'|e|] eqn:E; cbn [bind] in *; [|now apply div64r_err in E|exfalso; now apply NP]. inversion H; subst p. cbn. eauto.
      * inversion H; subst p. cbn. eauto.
    + inversion H; subst p. cbn. eauto.
Qed.

(** The chunks about the audio. *)
Definition audio_ids : list bytes := [$"fmt "; $"fact"; $"data"].
Definition content_ok (w : wchunk) : Prop := bytes_ok (snd (to_chunk w)).
Lemma first_nonempty_in : forall l, first_nonempty l = [] \/ In (first_nonempty l) l.
Proof. induction l as [|b l IH]; cbn; auto. destruct (lenN b =? 0); auto. destruct IH; auto. Qed.
Lemma first_nonzero_in : forall l, first_nonzero l = 0 \/ In (first_nonzero l) l.
Proof. induction l as [|b l IH]; cbn; auto. destruct (b =? 0); auto. destruct IH; auto. Qed.
Lemma with_in : forall id ws b, In b (with_id id ws) -> exists c, In (WChunk c) ws /\ b = snd c.
Proof. intros id ws b I. unfold with_id in I. apply in_flat_map in I as (w & I & J). destruct w as [s|c]; [destruct J|]. destruct (list_eqb (fst c) id); [|destruct J]. destruct J as [<-|[]]. eauto. Qed.
Lemma sound_same : forall m ws ws' junk junk' p, Forall (wchunk_ok m) ws -> Forall (wchunk_ok m) ws' -> Forall content_ok ws -> lenN junk < 8 -> lenN junk' < 8 ->
  4 + lenN (body false (map to_chunk ws)) < 2 ^ 32 -> 4 + lenN (body false (map to_chunk ws')) < 2 ^ 32 -> (forall id, In id audio_ids -> with_id id ws' = with_id id ws) ->
  wav_sound m (riff_file (map to_chunk ws) ++ junk) p -> exists q, wav_sound m (riff_file (map to_chunk ws') ++ junk') q /\ same_wav p q.
Proof.
  intros m ws ws' junk junk' p W W' CO J J' L L' SA (f & R & P). unfold wav_sound. rewrite wav_read_spec in R by auto. cbn [join_if bind] in R.
  assert (NP : wav_properties (first_nonempty (with_id ($"fmt ") ws)) (first_nonzero (map (fun b => le_dec (takeN 4 b)) (with_id ($"fact") ws))) (first_nonzero (map lenN (with_id ($"data") ws))) (lenN (riff_file (map to_chunk ws'))) <> Panic).
  { rewrite Forall_forall in W, CO. apply wav_properties_ok.
    - destruct (first_nonempty_in (with_id ($"fmt ") ws)) as [-> |I]; [constructor|]. apply with_in in I as (c & I & ->). exact (CO _ I).
    - destruct (first_nonzero_in (map (fun b => le_dec (takeN 4 b)) (with_id ($"fact") ws))) as [-> |I]; [reflexivity|]. apply in_map_iff in I as (b & <- & I). apply with_in in I as (c & I & ->).
      pose proof (le_dec_bound (takeN 4 (snd c)) (Forall_takeN _ _ _ _ (CO _ I))) as B. eapply N.lt_le_trans; [exact B|]. change (2 ^ 32) with (256 ^ 4). apply N.pow_le_mono_r; [lia|]. rewrite lenN_takeN. lia.
    - destruct (first_nonzero_in (map lenN (with_id ($"data") ws))) as [-> |I]; [reflexivity|]. apply in_map_iff in I as (b & <- & I). apply with_in in I as (c & I & ->). destruct (W _ I) as [[_ B] _]. exact B.
    - assert (E : lenN (riff_file (map to_chunk ws')) = 12 + lenN (body false (map to_chunk ws'))) by (rewrite <- (app_nil_r (riff_file _)), riff_len, lenN_nil; lia). rewrite E. change (2 ^ 32) with 4294967296 in *. change (2 ^ 59) with 576460752303423488. lia. }
  destruct (wav_properties _ _ _ (lenN (riff_file (map to_chunk ws)))) as [p0| |] eqn:E; cbn [bind] in R; try discriminate R. inversion R; subst f. cbn [wf_props] in P. injection P as ->.
  destruct (wav_properties_same _ _ _ _ _ p E NP) as (q & Q & S1). exists q. split; auto. rewrite wav_read_spec by auto. cbn [join_if bind]. rewrite !SA by (cbn; auto). rewrite Q. cbn [bind]. eexists. split. reflexivity. reflexivity.
Qed.
Lemma with_app : forall id a b, with_id id (a ++ b) = with_id id a ++ with_id id b. Proof. intros. unfold with_id. apply flat_map_app. Qed.

(** A RIFF INFO list is added, replaced or removed. *)
Theorem C248_riff_new : forall m m' ws junk t p, Forall (wchunk_ok m') ws -> Forall content_ok ws -> Forall (fun w => is_info (to_chunk w) = false) ws -> riff_ok t -> lenN junk < 8 ->
  12 + lenN (body false (map to_chunk ws)) < 2 ^ 32 -> 4 + lenN (body false (map to_chunk ws ++ info_chunks t)) < 2 ^ 32 -> wav_sound m' (riff_file (map to_chunk ws) ++ junk) p ->
  exists ops q, write_riff_info m (riff_file (map to_chunk ws) ++ junk) t = Ok ops /\ wav_sound m' (apply_log (riff_file (map to_chunk ws) ++ junk) ops) q /\ same_wav p q.
Proof.
  intros m m' ws junk t p W CO NI TO J L L' PS.
  assert (LI : Forall list_ok (map to_chunk ws)). { apply Forall_map. rewrite Forall_forall in *. intros w I. specialize (W w I). specialize (NI w I). destruct w as [s|c]; [exfalso|apply W]. revert NI. vm_compute. discriminate. }
  destruct (IffThm.C105_new_list m (map to_chunk ws) junk t) as (ops & WR & A); auto.
  { apply Forall_map. eapply Forall_impl; [|exact W]. intros w H. apply H. } { now apply Forall_map. }
  destruct (sound_same m' ws (ws ++ IffThm.info_w t) junk junk p) as (q & Q & SM); auto.
  - apply Forall_app. split; auto. apply IffThm.info_w_ok; auto. unfold body in *. rewrite flat_map_app, lenN_app in L'. lia.
  - lia.
  - now rewrite map_app, IffThm.info_w_chunks.
  - intros id I. rewrite with_app. destruct t; cbn; now rewrite app_nil_r.
  - exists ops, q. split; auto. split; auto. rewrite A. rewrite map_app, IffThm.info_w_chunks in Q. exact Q.
Qed.
Theorem C248_riff_replaced : forall m m' wa subs wb junk t p, let ws := wa ++ WInfo subs :: wb in Forall (wchunk_ok m') ws -> Forall content_ok ws -> Forall (fun w => is_info (to_chunk w) = false) wa -> riff_ok t -> lenN junk < 8 ->
  12 + lenN (body false (map to_chunk ws)) < 2 ^ 32 -> 4 + lenN (body false (map to_chunk wa ++ info_chunks t ++ map to_chunk wb)) < 2 ^ 32 -> wav_sound m' (riff_file (map to_chunk ws) ++ junk) p ->
  exists ops q, write_riff_info m (riff_file (map to_chunk ws) ++ junk) t = Ok ops /\ wav_sound m' (apply_log (riff_file (map to_chunk ws) ++ junk) ops) q /\ same_wav p q.
Proof.
  intros m m' wa subs wb junk t p ws W CO NI TO J L L' PS.
  assert (EM : map to_chunk ws = map to_chunk wa ++ to_chunk (WInfo subs) :: map to_chunk wb) by (unfold ws; now rewrite map_app).
  assert (WI : wchunk_ok m' (WInfo subs)) by (unfold ws in W; apply Forall_app in W as [_ W]; now inversion W).
  assert (LI : Forall list_ok (map to_chunk wa ++ [to_chunk (WInfo subs)])).
  { apply Forall_app. split.
    - apply Forall_map. unfold ws in W. apply Forall_app in W as [W _]. rewrite Forall_forall in *. intros w I. specialize (W w I). specialize (NI w I). destruct w as [s|c]; [exfalso|apply W]. revert NI. vm_compute. discriminate.
    - constructor; [|constructor]. unfold list_ok. cbn [to_chunk fst snd]. intros _. rewrite lenN_app. change (lenN ($"INFO")) with 4. lia. }
  destruct (IffThm.C105_list_replaced m (map to_chunk wa) (to_chunk (WInfo subs)) (map to_chunk wb) junk t) as (ops & WR & A); auto.
  { rewrite <- EM. apply Forall_map. eapply Forall_impl; [|exact W]. intros w H. apply H. } { now apply Forall_map. } { cbn [to_chunk snd]. rewrite lenN_app, N.even_add, body_even. reflexivity. apply WI. } { now rewrite <- EM. }
  rewrite <- EM in *. unfold ws in *.
  destruct (sound_same m' (wa ++ WInfo subs :: wb) (wa ++ IffThm.info_w t ++ wb) junk junk p) as (q & Q & SM); auto.
  - apply Forall_app in W as [W1 W2]. inversion W2; subst. apply Forall_app. split; auto. apply Forall_app. split; auto. apply IffThm.info_w_ok; auto. unfold body in *. rewrite !flat_map_app, !lenN_app in L'. lia.
  - lia.
  - now rewrite !map_app, IffThm.info_w_chunks.
  - intros id I. change (WInfo subs :: wb) with ([WInfo subs] ++ wb). rewrite !with_app. destruct t; reflexivity.
  - exists ops, q. split; auto. split; auto. rewrite A. rewrite !map_app, IffThm.info_w_chunks in Q. exact Q.
Qed.

(** An ID3v2 chunk is added, replaced or removed. *)
Definition contents (id : bytes) (cs : list (bytes * bytes)) : list bytes := flat_map (fun c => if list_eqb (fst c) id then [snd c] else []) cs.
Lemma with_contents : forall id ws, In id audio_ids -> with_id id ws = contents id (map to_chunk ws).
Proof.
  intros id ws I. induction ws as [|w ws IH]; auto. change (w :: ws) with ([w] ++ ws). rewrite with_app, map_app. unfold contents in *. rewrite flat_map_app, <- IH. f_equal. destruct w as [s|c]; auto.
  destruct I as [<-|[<-|[<-|[]]]]; reflexivity.
Qed.
Lemma contents_app : forall id a b, contents id (a ++ b) = contents id a ++ contents id b. Proof. intros. unfold contents. apply flat_map_app. Qed.
Lemma contents_tag : forall id c, In id audio_ids -> id3_id (fst c) = true -> contents id [c] = [].
Proof.
  intros id [x b] I T. cbn [fst] in T. unfold contents. cbn [flat_map fst snd]. destruct (list_eqb x id) eqn:E; auto. exfalso. apply list_eqb_eq in E. subst x. destruct I as [<-|[<-|[<-|[]]]]; vm_compute in T; discriminate T.
Qed.
Lemma name_tag : forall upper, id3_id (id3_name upper) = true. Proof. now intros []. Qed.
Lemma replaces_contents : forall id padding new old junk kept, In id audio_ids -> replaces false padding new old junk kept -> contents id kept = contents id old.
Proof.
  intros id padding new old junk kept I R. destruct R as [cs junk F|a c b junk F T _ _|a c F T _]; auto.
  - change (c :: b) with ([c] ++ b). now rewrite !contents_app, contents_tag by auto.
  - now rewrite contents_app, contents_tag, app_nil_r by auto.
Qed.
Lemma replaces_in : forall padding new old junk kept, replaces false padding new old junk kept -> forall c, In c kept -> In c old.
Proof. intros padding new old junk kept R. destruct R; intros x I; auto. apply in_app_iff in I as [I|I]; apply in_app_iff; cbn; auto. apply in_app_iff. auto. Qed.
(** Chunks of a readable file, taken alone. *)
Lemma sub_wchunks : forall m ws cs, Forall (wchunk_ok m) ws -> (forall c, In c cs -> In c (map to_chunk ws)) -> exists us, map to_chunk us = cs /\ Forall (wchunk_ok m) us.
Proof.
  intros m ws cs W. induction cs as [|c cs IH]; intro I. { exists []. auto. } destruct IH as (us & <- & U). { intros x X. apply I. now right. }
  destruct (proj1 (in_map_iff _ _ _) (I c (or_introl eq_refl))) as (w & <- & J). exists (w :: us). split; auto. constructor; auto. rewrite Forall_forall in W. auto.
Qed.
Lemma sub_sound : forall m ws us junk p, Forall (wchunk_ok m) ws -> Forall (wchunk_ok m) us -> Forall content_ok ws -> lenN junk < 8 ->
  4 + lenN (body false (map to_chunk ws)) < 2 ^ 32 -> 4 + lenN (body false (map to_chunk us)) < 2 ^ 32 -> (forall id, In id audio_ids -> contents id (map to_chunk us) = contents id (map to_chunk ws)) ->
  wav_sound m (riff_file (map to_chunk ws) ++ junk) p -> exists q, wav_sound m (riff_file (map to_chunk us) ++ junk) q /\ same_wav p q.
Proof. intros m ws us junk p W U CO J L L' E. apply sound_same; auto. intros id I. rewrite !with_contents by auto. now apply E. Qed.
Lemma riff_id : id_ok ($"RIFF"). Proof. apply id_ok_valid. split; reflexivity. Qed.
Theorem C248_wav_id3 : forall m m' upper padding ws junk tag kept p, Forall (wchunk_ok m') ws -> Forall content_ok ws -> lenN junk < 8 -> 10 <= lenN tag < 2 ^ 32 ->
  replaces false padding (id3_name upper, tag) (map to_chunk ws) junk kept ->
  12 + lenN (body false (map to_chunk ws)) < 2 ^ 32 -> 12 + lenN (body false (kept ++ [(id3_name upper, tag)])) < 2 ^ 32 -> wav_sound m' (riff_file (map to_chunk ws) ++ junk) p ->
  exists ops q, write_id3_chunk false m upper padding (riff_file (map to_chunk ws) ++ junk) tag = Ok ops /\ wav_sound m' (apply_log (riff_file (map to_chunk ws) ++ junk) ops) q /\ same_wav p q.
Proof.
  intros m m' upper padding ws junk tag kept p W CO J [T1 T2] R L L' PS.
  assert (CK : Forall chunk_ok (map to_chunk ws)). { apply Forall_map. eapply Forall_impl; [|exact W]. intros w H. apply H. }
  destruct (replaces_saves false upper padding m ($"RIFF") ($"WAVE") tag (map to_chunk ws) junk kept) as (ops & WR & A); auto; try reflexivity.
  { exact riff_id. } { intros ->. rewrite lenN_nil in T1. lia. }
  destruct (sub_wchunks m' ws kept W (replaces_in _ _ _ _ _ R)) as (us & EU & UO).
  destruct (sub_sound m' ws (us ++ [WChunk (id3_name upper, tag)]) junk p) as (q & Q & SM); auto.
  - apply Forall_app. split; auto. constructor; [|constructor]. split. { split; auto. apply id3_name_ok. } split; [now destruct upper|]. split; [|split; auto]; destruct upper; discriminate.
  - lia.
  - rewrite map_app, EU. cbn [map to_chunk]. lia.
  - intros id I. rewrite map_app, EU, contents_app. cbn [map to_chunk]. rewrite contents_tag by (auto; apply name_tag). rewrite app_nil_r. eapply replaces_contents; eauto.
  - exists ops, q. split; [exact WR|]. split; auto. rewrite map_app, EU in Q. cbn [map to_chunk] in Q. unfold riff_file in *. rewrite A. exact Q.
Qed.
Theorem C248_wav_removed : forall m m' upper padding ws junk p, Forall (wchunk_ok m') ws -> Forall content_ok ws -> lenN junk < 8 -> 12 + lenN (body false (map to_chunk ws)) < 2 ^ 32 ->
  wav_sound m' (riff_file (map to_chunk ws) ++ junk) p ->
  exists ops q, write_id3_chunk false m upper padding (riff_file (map to_chunk ws) ++ junk) [] = Ok ops /\ wav_sound m' (apply_log (riff_file (map to_chunk ws) ++ junk) ops) q /\ same_wav p q.
Proof.
  intros m m' upper padding ws junk p W CO J L PS. assert (CK : Forall chunk_ok (map to_chunk ws)). { apply Forall_map. eapply Forall_impl; [|exact W]. intros w H. apply H. }
  assert (D : Forall no_tag (map to_chunk ws) \/ exists a c b, map to_chunk ws = a ++ c :: b /\ Forall no_tag a /\ id3_id (fst c) = true).
  { clear. induction (map to_chunk ws) as [|c cs IH]; auto. destruct (id3_id (fst c)) eqn:E. { right. exists [], c, cs. auto. } destruct IH as [IH|(a & d & b & -> & F & I)]. { left. constructor; auto. } right. exists (c :: a), d, b. repeat split; auto. }
  destruct D as [D|(a & c & b & E & F & I)].
  - destruct (C106_nothing_to_remove false m upper padding ($"RIFF") ($"WAVE") (map to_chunk ws) junk riff_id eq_refl CK) as (ops & WR & A); auto. { lia. }
    exists ops, p. split; [exact WR|]. split. { unfold riff_file in *. rewrite A. exact PS. } destruct p. unfold same_wav. cbn. eauto.
  - rewrite E in *. destruct (C106_removed false m upper padding ($"RIFF") ($"WAVE") a c b junk riff_id eq_refl CK L F I) as (ops & WR & A).
    match type of A with _ = iff_file _ _ _ ?x ++ _ => set (new := x) in * end.
    assert (JK : wchunk_ok m' (WChunk ($"JUNK", snd c))). { split. { split. apply id_ok_valid; split; reflexivity. rewrite Forall_forall in CK. apply (CK c). apply in_app_iff. cbn. auto. } split; [reflexivity|]. split; [discriminate|]. split; discriminate. }
    assert (NW : exists us, map to_chunk us = new /\ Forall (wchunk_ok m') us /\ (forall id, In id audio_ids -> contents id new = contents id (map to_chunk ws))).
    { destruct (sub_wchunks m' ws a W) as (ua & EA & UA). { intros x X. rewrite E. apply in_app_iff. auto. } destruct (sub_wchunks m' ws b W) as (ub & EB & UB). { intros x X. rewrite E. apply in_app_iff. cbn. auto. }
      unfold new. match goal with |- context [if ?x then _ else _] => destruct x end.
      - exists (ua ++ WChunk ($"JUNK", snd c) :: ub). rewrite map_app. cbn [map to_chunk]. rewrite EA, EB. split; auto. split. { apply Forall_app. split; auto. }
        intros id Y. rewrite E. change (c :: b) with ([c] ++ b). change (($"JUNK", snd c) :: b) with ([($"JUNK", snd c)] ++ b). rewrite !contents_app, (contents_tag id c) by auto. f_equal. f_equal. destruct Y as [<-|[<-|[<-|[]]]]; reflexivity.
      - exists (ua ++ ub). rewrite map_app, EA, EB. split; auto. split. { apply Forall_app. split; auto. }
        intros id Y. rewrite E. change (c :: b) with ([c] ++ b). rewrite !contents_app, (contents_tag id c) by auto. reflexivity. }
    destruct NW as (us & EU & UO & CT).
    assert (LN : lenN (body false new) <= lenN (body false (a ++ c :: b))).
    { unfold new. match goal with |- context [if ?x then _ else _] => destruct x end; unfold body; rewrite !flat_map_app; cbn [flat_map]; rewrite !lenN_app; unfold chunk_bytes; cbn [fst snd]; rewrite ?lenN_app; [|lia].
      assert (IL : lenN (fst c) = 4). { rewrite Forall_forall in CK. apply (CK c). apply in_app_iff. cbn. auto. } rewrite IL. change (lenN ($"JUNK")) with 4. lia. }
    destruct (sub_sound m' ws us junk p) as (q & Q & SM); auto.
    + rewrite E. lia.
    + rewrite EU. lia.
    + intros id Y. rewrite EU. now apply CT.
    + now rewrite E.
    + exists ops, q. split; [exact WR|]. split; auto. rewrite EU in Q. unfold riff_file in *. rewrite A. exact Q.
Qed.
Definition snd_fmt : bytes := fmt_chunk 1 1 8000 8000 1 8.
Definition wav_props_of (data : bytes) : option wav_props := match wav_read (T := unit) IffThm.no_id3 (fun a _ => a) BestAttempt false true data with Ok f => wf_props f | _ => None end.
Definition after_id3 (padding : bool) (tag data : bytes) : option (option wav_props) := match write_id3_chunk false BestAttempt false padding data tag with Ok ops => Some (wav_props_of (apply_log data ops)) | _ => None end.
Definition snd_ex : bytes := riff_file [($"fmt ", snd_fmt); ($"data", repeat 7 80)].
Example C248_wav_ex : wav_props_of snd_ex = Some (mkWp WPcm 10 99 64 8000 8 1 None) /\ after_id3 true (repeat 2 20) snd_ex = Some (Some (mkWp WPcm 10 122 64 8000 8 1 None)) /\
  match write_riff_info BestAttempt snd_ex [($"INAM", $"A")] with Ok ops => wav_props_of (apply_log snd_ex ops) | _ => None end = Some (mkWp WPcm 10 117 64 8000 8 1 None).
Proof. repeat split; vm_compute; reflexivity. Qed.
(** The overall bit rate is that of the whole file, with its tags. *)
Theorem C248_overall_refuted : exists data p ops q, wav_sound Strict data p /\ write_riff_info Strict data [($"INAM", $"A")] = Ok ops /\ wav_sound Strict (apply_log data ops) q /\ wp_overall p = 99 /\ wp_overall q = 117.
Proof. exists snd_ex. do 3 eexists. split. eexists. split; vm_compute; reflexivity. split. vm_compute. reflexivity. split. eexists. split; vm_compute; reflexivity. split; reflexivity. Qed.
(** A smaller tag, saved with padding over one in front of the audio: neither the audio nor its properties are found again. *)
Theorem C248_lost_refuted : exists data p ops, wav_sound BestAttempt data p /\ write_id3_chunk false BestAttempt false true data (repeat 2 20) = Ok ops /\ forall q, ~ wav_sound BestAttempt (apply_log data ops) q.
Proof.
  exists (riff_file [($"fmt ", snd_fmt); ($"id3 ", repeat 1 40); ($"data", repeat 7 80)]). do 2 eexists. split. eexists. split; vm_compute; reflexivity. split. vm_compute. reflexivity.
  intros q (f & R & _). vm_compute in R. discriminate R.
Qed.

(** ** AIFF *)
Definition same_aiff (p q : aiff_props) : Prop := exists overall, q = mkAp (ap_duration p) overall (ap_audio p) (ap_rate p) (ap_size p) (ap_channels p) (ap_comp p).
Definition aiff_sound (m : pmode) (data : bytes) (p : aiff_props) : Prop := exists f, aiff_read (T := unit) AiffThm.no_id3 (fun a _ => a) m false true data = Ok f /\ af_props f = Some p.
Lemma aiff_times_same : forall frames rate stream file file', exists d o o' a, aiff_times frames rate stream file = (d, o, a) /\ aiff_times frames rate stream file' = (d, o', a).
Proof. intros. unfold aiff_times. destruct (_ && _); repeat eexists. Qed.
Lemma aiff_properties_same : forall comm aifc stream file file' p, aiff_properties comm aifc stream file = Ok p -> exists q, aiff_properties comm aifc stream file' = Ok q /\ same_aiff p q.
Proof.
  intros comm aifc stream file file' p H. unfold same_aiff. unfold aiff_properties in *.
  destruct (read_be 2 comm) as [[channels r]|]; cbn [iord bind] in *; [|discriminate]. destruct (channels =? 0); [discriminate|].
  destruct (read_be 4 r) as [[frames r1]|]; cbn [iord bind] in *; [|discriminate]. destruct (read_be 2 r1) as [[size r2]|]; cbn [iord bind] in *; [|discriminate].
  destruct (read_exact 10 r2) as [[f r3]|]; cbn [iord bind] in *; [|discriminate]. destruct (_ || _); [discriminate|].
  set (rate := N.min U32_MAX _) in *. destruct (aiff_times_same frames rate stream file file') as (d & o & o' & a & E1 & E2). rewrite E1 in H. rewrite E2. clear E1 E2.
  destruct (negb _). { inversion H; subst p. eauto. }
  destruct (read_exact 4 r3) as [[ty r4]|]; cbn [iord bind] in *; [|discriminate]. match type of H with (let? _ := ?e in _) = _ => destruct e as [c| |]; cbn [bind] in *; try discriminate end. inversion H; subst p. cbn. eauto.
Qed.
Definition about_audio (c : bytes * bytes) : bool := list_eqb (fst c) ($"COMM") || list_eqb (fst c) ($"SSND").
Lemma take_audio : forall T (id3 : bytes -> res iff_error T) join m cs a, take_all id3 join m false true cs a = take_all id3 join m false true (filter about_audio cs) a.
Proof.
  induction cs as [|c cs IH]; intro a; auto. cbn [filter]. destruct (about_audio c) eqn:E.
  - cbn [take_all]. destruct (take1 id3 join m false true c a); cbn [bind]; auto.
  - cbn [take_all]. replace (take1 id3 join m false true c a) with (Ok a : res iff_error (aiff_acc T)). { cbn [bind]. apply IH. }
    unfold about_audio in E. apply orb_false_iff in E as [E1 E2]. destruct a. unfold take1. rewrite E1, E2, !andb_false_r. reflexivity.
Qed.
Lemma aiff_same : forall m kind cs cs' junk junk' p, aiff_kind kind -> Forall chunk_ok cs -> Forall chunk_ok cs' -> lenN junk < 8 -> lenN junk' < 8 -> filter about_audio cs' = filter about_audio cs ->
  aiff_sound m (form_file kind cs ++ junk) p -> exists q, aiff_sound m (form_file kind cs' ++ junk') q /\ same_aiff p q.
Proof.
  intros m kind cs cs' junk junk' p K C C' J J' E (f & R & P). unfold aiff_sound, form_file in *. rewrite iff_head, aiff_read_spec, take_audio in R by auto.
  destruct (take_all _ _ _ _ _ _ _) as [a| |] eqn:T; cbn [bind] in *; try discriminate. destruct (aa_comm a) as [comm|] eqn:AC; cbn [bind] in *; [|discriminate]. destruct (aa_stream a =? 0) eqn:AS; cbn [bind] in *; [discriminate|].
  destruct (aiff_properties comm _ _ (12 + lenN (body true cs))) as [p0| |] eqn:A; cbn [bind] in R; try discriminate. inversion R; subst f. cbn [af_props] in P. injection P as ->.
  destruct (aiff_properties_same _ _ _ _ (12 + lenN (body true cs')) p A) as (q & Q & SM). exists q. split; auto. rewrite iff_head, aiff_read_spec by auto. rewrite take_audio, E, T. cbn [bind]. rewrite AC, AS, Q. cbn [bind]. eauto.
Qed.
Lemma filter_none : forall A (f : A -> bool) l, Forall (fun x => f x = false) l -> filter f l = [].
Proof. induction 1 as [|x l E F IH]; auto. cbn [filter]. now rewrite E. Qed.
Lemma text_audio : forall c, is_text_id (fst c) = true -> about_audio c = false.
Proof.
  intros [id b] T. unfold about_audio, is_text_id in *. cbn [fst] in *. destruct (list_eqb id ($"COMM")) eqn:E1. { apply list_eqb_eq in E1. subst id. vm_compute in T. discriminate T. }
  destruct (list_eqb id ($"SSND")) eqn:E2; auto. apply list_eqb_eq in E2. subst id. vm_compute in T. discriminate T.
Qed.
Lemma tag_audio : forall c, id3_id (fst c) = true -> about_audio c = false.
Proof.
  intros [id b] T. unfold about_audio, id3_id in *. cbn [fst] in *. destruct (list_eqb id ($"COMM")) eqn:E1. { apply list_eqb_eq in E1. subst id. vm_compute in T. discriminate T. }
  destruct (list_eqb id ($"SSND")) eqn:E2; auto. apply list_eqb_eq in E2. subst id. vm_compute in T. discriminate T.
Qed.
Lemma filter_audio_text : forall b, filter about_audio (filter not_text b) = filter about_audio b.
Proof.
  induction b as [|c b IH]; auto. cbn [filter]. unfold not_text at 1. destruct (is_text_id (fst c)) eqn:T; cbn [negb filter]. now rewrite (text_audio c T). now rewrite IH.
Qed.
Lemma filter_texts : forall t, filter about_audio (text_chunks t) = [].
Proof. intro t. apply filter_none. eapply Forall_impl; [|apply text_chunks_text]. apply text_audio. Qed.
(** The text chunks are added, or replaced. *)
Theorem C248_aiff_text_new : forall m m' kind t a c b p, aiff_kind kind -> text_ok t -> Forall chunk_ok (a ++ c :: b) -> Forall (fun c => not_text c = true) (a ++ c :: b) -> fst c = $"COMM" -> Forall (fun c => fst c <> $"COMM") b ->
  4 + lenN (body true (a ++ c :: text_chunks t ++ b)) < 2 ^ 32 -> aiff_sound m' (form_file kind (a ++ c :: b)) p ->
  exists ops q, write_aiff_text m (form_file kind (a ++ c :: b)) t = Ok ops /\ aiff_sound m' (apply_log (form_file kind (a ++ c :: b)) ops) q /\ same_aiff p q.
Proof.
  intros m m' kind t a c b p K TO O NT CM NC L PS. destruct (C108_new_text m kind t a c b K TO O NT CM NC L) as (ops & W & A).
  destruct (aiff_same m' kind (a ++ c :: b) (a ++ c :: text_chunks t ++ b) [] [] p) as (q & Q & SM); auto; try reflexivity.
  - apply Forall_app in O as [O1 O2]. inversion O2; subst. apply Forall_app. split; auto. constructor; auto. apply Forall_app. split; auto. now apply text_chunks_ok.
  - rewrite !filter_app. cbn [filter]. rewrite filter_app, filter_texts. reflexivity.
  - now rewrite app_nil_r.
  - exists ops, q. split; auto. split; auto. rewrite A. now rewrite app_nil_r in Q.
Qed.
Theorem C248_aiff_text_replaced : forall m m' kind t a c b p, aiff_kind kind -> text_ok t -> Forall chunk_ok (a ++ c :: b) -> Forall (fun c => not_text c = true) a -> is_text_id (fst c) = true -> Exists (fun c => fst c = $"COMM") (a ++ c :: b) ->
  4 + lenN (body true (a ++ text_chunks t ++ filter not_text b)) < 2 ^ 32 -> aiff_sound m' (form_file kind (a ++ c :: b)) p ->
  exists ops q, write_aiff_text m (form_file kind (a ++ c :: b)) t = Ok ops /\ aiff_sound m' (apply_log (form_file kind (a ++ c :: b)) ops) q /\ same_aiff p q.
Proof.
  intros m m' kind t a c b p K TO O NT CM EX L PS. destruct (C108_text_replaced m kind t a c b K TO O NT CM EX L) as (ops & W & A).
  destruct (aiff_same m' kind (a ++ c :: b) (a ++ text_chunks t ++ filter not_text b) [] [] p) as (q & Q & SM); auto; try reflexivity.
  - apply Forall_app in O as [O1 O2]. inversion O2; subst. apply Forall_app. split; auto. apply Forall_app. split. now apply text_chunks_ok. apply Forall_forall. intros x X. apply filter_In in X as [X _]. rewrite Forall_forall in H2. auto.
  - rewrite !filter_app. cbn [filter]. rewrite (text_audio c CM), filter_texts, filter_audio_text. reflexivity.
  - now rewrite app_nil_r.
  - exists ops, q. split; auto. split; auto. rewrite A. now rewrite app_nil_r in Q.
Qed.
(** An ID3v2 chunk is added, replaced or removed. *)
Lemma form_id : id_ok ($"FORM"). Proof. apply id_ok_valid. split; reflexivity. Qed.
Theorem C248_aiff_id3 : forall m m' upper padding kind cs junk tag kept p, aiff_kind kind -> Forall chunk_ok cs -> lenN junk < 8 -> tag <> [] -> lenN tag < 2 ^ 32 ->
  replaces true padding (id3_name upper, tag) cs junk kept -> 12 + lenN (body true cs) < 2 ^ 32 -> 12 + lenN (body true (kept ++ [(id3_name upper, tag)])) < 2 ^ 32 -> aiff_sound m' (form_file kind cs ++ junk) p ->
  exists ops q, write_id3_chunk true m upper padding (form_file kind cs ++ junk) tag = Ok ops /\ aiff_sound m' (apply_log (form_file kind cs ++ junk) ops) q /\ same_aiff p q.
Proof.
  intros m m' upper padding kind cs junk tag kept p K O J NE TL R L L' PS.
  destruct (replaces_saves true upper padding m ($"FORM") kind tag cs junk kept form_id (aiff_kind_len _ K) NE TL O R L L') as (ops & W & A).
  destruct (aiff_same m' kind cs (kept ++ [(id3_name upper, tag)]) junk junk p) as (q & Q & SM); auto.
  - apply Forall_app. split; [|constructor; [split; [apply id3_name_ok|exact TL]|constructor]]. destruct R as [cs junk F|a c b junk F T _ _|a c F T _]; auto; apply Forall_app in O as [O1 O2]; auto. inversion O2; subst. apply Forall_app. auto.
  - rewrite filter_app. cbn [filter]. rewrite (tag_audio (id3_name upper, tag) (name_tag upper)), app_nil_r. destruct R as [cs junk F|a c b junk F T _ _|a c F T _]; auto; rewrite !filter_app; cbn [filter]; rewrite (tag_audio c T); auto. now rewrite app_nil_r.
  - exists ops, q. split; auto. split; auto. unfold form_file in *. rewrite A. exact Q.
Qed.
Theorem C248_aiff_removed : forall m m' upper padding kind a c b junk p, aiff_kind kind -> Forall chunk_ok (a ++ c :: b) -> lenN junk < 8 -> 12 + lenN (body true (a ++ c :: b)) < 2 ^ 32 -> Forall no_tag a -> id3_id (fst c) = true ->
  aiff_sound m' (form_file kind (a ++ c :: b) ++ junk) p ->
  exists ops q, write_id3_chunk true m upper padding (form_file kind (a ++ c :: b) ++ junk) [] = Ok ops /\ aiff_sound m' (apply_log (form_file kind (a ++ c :: b) ++ junk) ops) q /\ same_aiff p q.
Proof.
  intros m m' upper padding kind a c b junk p K O J L F I PS. destruct (C106_removed true m upper padding ($"FORM") kind a c b junk form_id (aiff_kind_len _ K) O L F I) as (ops & W & A).
  destruct (aiff_same m' kind (a ++ c :: b) (a ++ b) junk junk p) as (q & Q & SM); auto.
  - apply Forall_app in O as [O1 O2]. inversion O2; subst. apply Forall_app. auto.
  - rewrite !filter_app. cbn [filter]. now rewrite (tag_audio c I).
  - exists ops, q. split; auto. split; auto. unfold form_file in *. rewrite A. exact Q.
Qed.
Definition aiff_ex : list (bytes * bytes) := [($"COMM", comm_chunk 1 80 8 8000); ($"SSND", repeat 7 88)].
Definition aiff_props_of (data : bytes) : option aiff_props := match aiff_read (T := unit) AiffThm.no_id3 (fun a _ => a) Strict false true data with Ok f => af_props f | _ => None end.
Example C248_aiff_ex : match write_aiff_text Strict (form_file ($"AIFF") aiff_ex) text1 with Ok ops => aiff_props_of (apply_log (form_file ($"AIFF") aiff_ex) ops) | _ => None end = Some (mkAp 10 171 70 8000 8 1 None).
Proof. vm_compute. reflexivity. Qed.
