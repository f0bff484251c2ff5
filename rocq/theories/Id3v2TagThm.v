(** The accessors of an ID3v2 tag. *)
From Coq Require Import Permutation.
From Verif Require Import BaseLemmas StrLemmas TimestampProof FrameProof2 Frame23Proof Id3v2TagProof.
From Verif Require Import Id3v2TagSpec.

(** ** C153: title, artist and album *)
Theorem C153_set_text : forall id s t, In id [$"TIT2"; $"TPE1"; $"TALB"; $"TCON"] -> plain_name id t ->
  let t' := acc_set_text id s t in
  fl_get_text (Valid id) (t_frames t') = Some s /\ (~ In 0 s -> acc_text id t' = Some s) /\
  mine id t' = [FText (mkFH (Valid id) ff_default) UTF8 s] /\ others id t' = others id t /\ same_head t t'.
Proof.
  intros id s t I P t'. assert (N : in_names id ONE_PER_TAG = false) by (repeat destruct I as [<- | I]; try reflexivity; contradiction).
  destruct (insert_text_spec id s t N P) as [M O]. unfold t', acc_set_text.
  assert (G : fl_get_text (Valid id) (t_frames (tag_insert (text_frame id s) t)) = Some s) by (rewrite get_text_mine, M; reflexivity).
  repeat split; auto. intros Z. unfold acc_text. rewrite G. cbn [option_map]. now rewrite shown_plain.
Qed.
Theorem C153_remove : forall id t, let t' := acc_remove id t in
  acc_text id t' = None /\ Permutation (t_frames t') (others id t) /\ same_head t t'.
Proof.
  intros id t t'. destruct (remove_spec id t) as [P M]. unfold t'. repeat split; auto. unfold acc_text. rewrite get_text_mine, M. reflexivity.
Qed.
(** Several values in a frame of a 2.4 tag are shown with slashes between them. *)
Theorem C153_values : forall id t h e s, mine id t = [FText h e s] -> t_version t = V4 ->
  acc_text id t = Some (map (fun c => if c =? 0 then 47 else c) s).
Proof. intros id t h e s M V. unfold acc_text. rewrite get_text_mine, M, V. reflexivity. Qed.
(** A frame of that name that is not a text frame, as an encrypted one, hides the title that is set. *)
Definition locked : id3v2_tag := with_frames id3v2_default [FBin (mkFH (Valid ($"TIT2")) (mkFF false false false None false (Some 1) false (Some 5))) [1; 2; 3]].
Theorem C153_hidden_refuted : exists t, acc_text ($"TIT2") (acc_set_text ($"TIT2") ($"New") t) = None.
Proof. exists locked. reflexivity. Qed.
(** Removing a frame can change the order of the others. *)
Theorem C153_order_refuted : exists t, t_frames (acc_remove ($"TIT2") t) <> others ($"TIT2") t.
Proof.
  exists (with_frames id3v2_default [text_frame ($"TPE1") ($"A"); text_frame ($"TALB") ($"B"); text_frame ($"TIT2") ($"C")]).
  vm_compute. intros H. discriminate H.
Qed.
Example C153_example :
  let t := with_frames id3v2_default [text_frame ($"TIT2") ($"Old"); text_frame ($"TALB") ($"Album")] in
  let t' := acc_set_text ($"TIT2") ($"New") t in
  acc_text ($"TIT2") t = Some ($"Old") /\ acc_text ($"TIT2") t' = Some ($"New") /\ acc_text ($"TALB") t' = Some ($"Album") /\
  acc_text ($"TIT2") (acc_remove ($"TIT2") t') = None /\
  acc_text ($"TPE1") (acc_set_text ($"TPE1") ($"A" ++ [0] ++ $"B") t) = Some ($"A/B").
Proof. repeat split. Qed.
Example C153_plain : plain_name ($"TIT2") (with_frames id3v2_default [text_frame ($"TIT2") ($"Old"); text_frame ($"TALB") ($"Album")]).
Proof. right. do 3 eexists. reflexivity. Qed.

(** ** C154: track and disc numbers *)
Definition NUMBERS : list str := [$"TRCK"; $"TPOS"].
Lemma numbers_names : forall id, In id NUMBERS -> in_names id ONE_PER_TAG = false.
Proof. intros id I. unfold NUMBERS in I. repeat destruct I as [<- | I]; try reflexivity. contradiction. Qed.
Lemma insert_pair : forall id n m t, In id NUMBERS -> plain_name id t ->
  (match n with Some n => n <= U32_MAX | None => True end) -> (match m with Some m => m <= U32_MAX | None => True end) ->
  (n <> None \/ m <> None) ->
  let t' := insert_number_pair id n m t in
  acc_number id t' = Some (match n with Some n => n | None => 0 end) /\ acc_total id t' = m /\ others id t' = others id t /\ same_head t t'.
Proof.
  intros id n m t I P Hn Hm O t'. pose proof (format_pair n m Hn Hm) as F. unfold t', insert_number_pair.
  destruct (format_number_pair n m) as [s|]; [|destruct F; tauto].
  destruct (insert_text_spec id s t (numbers_names id I) P) as [M Ot].
  unfold acc_number, acc_total, split_num_pair. rewrite get_text_mine, M. cbn [text_frame new_header fst snd]. destruct F as [F1 F2].
  repeat split; auto.
Qed.
Theorem C154_set_number : forall id n t, In id NUMBERS -> plain_name id t -> n <= U32_MAX ->
  let t' := acc_set_number id n t in
  acc_number id t' = Some n /\ acc_total id t' = acc_total id t /\ others id t' = others id t /\ same_head t t'.
Proof.
  intros id n t I P Hn. apply (insert_pair id (Some n) (acc_total id t) t I P Hn).
  - destruct (acc_total id t) as [m|] eqn:E; auto. eapply pair_bound; eauto.
  - left. discriminate.
Qed.
Theorem C154_set_total : forall id n t, In id NUMBERS -> plain_name id t -> n <= U32_MAX ->
  let t' := acc_set_total id n t in
  acc_total id t' = Some n /\ (acc_number id t <> None -> acc_number id t' = acc_number id t) /\
  others id t' = others id t /\ same_head t t'.
Proof.
  intros id n t I P Hn t'. destruct (insert_pair id (acc_number id t) (Some n) t I P) as (A & B & C & D); auto.
  - destruct (acc_number id t) as [m|] eqn:E; auto. eapply pair_bound; eauto.
  - right. discriminate.
  - unfold t', acc_set_total. split; [exact B|]. split; [|split; auto]. intros X. rewrite A. destruct (acc_number id t); congruence.
Qed.
Theorem C154_remove_total : forall id t, In id NUMBERS ->
  let t' := acc_remove_total id t in
  acc_total id t' = None /\ acc_number id t' = acc_number id t /\ Permutation (others id t') (others id t) /\ same_head t t'.
Proof.
  intros id t I t'. destruct (remove_spec id t) as [P M].
  assert (O : Permutation (others id (acc_remove id t)) (others id t)).
  { unfold others at 1. rewrite (filter_perm _ _ _ _ P). unfold others. rewrite filter_all2; auto. apply Forall_forall. intros f J.
    now apply filter_In in J. }
  unfold t', acc_remove_total. destruct (acc_number id t) as [n|] eqn:E.
  - assert (Hn : n <= U32_MAX) by (eapply pair_bound; eauto).
    destruct (insert_pair id (Some n) None (acc_remove id t) I) as (A & B & C & D); auto. now left. left. discriminate.
    unfold insert_number_pair in *. cbn [format_number_pair] in *. repeat split; auto. now rewrite C.
  - unfold acc_total, acc_number, split_num_pair. rewrite get_text_mine, M. repeat split; auto.
Qed.
(** A frame that has only a total gives it as the number. *)
Theorem C154_total_only_refuted : exists t,
  fl_get_text (Valid ($"TRCK")) (t_frames t) = Some ($"/10") /\ acc_number ($"TRCK") t = Some 10 /\ acc_total ($"TRCK") t = None.
Proof. exists (with_frames id3v2_default [text_frame ($"TRCK") ($"/10")]). repeat split. Qed.
(** Setting the total of a tag without a number makes the number zero; removing the number removes the total. *)
Theorem C154_invented_refuted : forall id n t, In id NUMBERS -> mine id t = [] -> n <= U32_MAX ->
  acc_number id t = None /\ acc_number id (acc_set_total id n t) = Some 0.
Proof.
  intros id n t I M Hn. assert (E : acc_number id t = None) by (unfold acc_number, split_num_pair; rewrite get_text_mine, M; reflexivity).
  split; auto. unfold acc_set_total. rewrite E. apply (insert_pair id None (Some n) t I); auto. now left. right. discriminate.
Qed.
Theorem C154_total_removed_refuted : forall id t, In id NUMBERS -> acc_total id (acc_remove id t) = None.
Proof. intros id t I. destruct (remove_spec id t) as [_ M]. unfold acc_total, split_num_pair. rewrite get_text_mine, M. reflexivity. Qed.
Example C154_example :
  let t := with_frames id3v2_default [text_frame ($"TRCK") ($"3/12"); text_frame ($"TALB") ($"Album")] in
  acc_number ($"TRCK") t = Some 3 /\ acc_total ($"TRCK") t = Some 12 /\
  acc_number ($"TRCK") (acc_set_number ($"TRCK") 5 t) = Some 5 /\ acc_total ($"TRCK") (acc_set_number ($"TRCK") 5 t) = Some 12 /\
  fl_get_text (Valid ($"TRCK")) (t_frames (acc_set_total ($"TRCK") 9 t)) = Some ($"3/9") /\
  fl_get_text (Valid ($"TRCK")) (t_frames (acc_remove_total ($"TRCK") t)) = Some ($"3").
Proof. repeat split. Qed.

(** ** C155: the recording date *)
(** The date is taken from a timestamp frame, but set as a text frame: it cannot be read until the tag was saved and read again,
    and an older date stays. *)
Theorem C155_set_refuted : forall d t, mine ($"TDRC") t = [] -> acc_date (acc_set_date d t) = None.
Proof.
  intros d t M. unfold acc_date, acc_set_date. rewrite get_mine.
  destruct (insert_text_spec ($"TDRC") (ts_display d) t eq_refl) as [-> _]; [now left|]. reflexivity.
Qed.
Theorem C155_old_refuted : forall d t h e d0, mine ($"TDRC") t = [FTime h e d0] -> acc_date (acc_set_date d t) = Some d0.
Proof.
  intros d t h e d0 M. unfold acc_date, acc_set_date. rewrite get_mine. unfold mine in *. unfold tag_insert, with_frames. cbn [t_frames].
  unfold fl_insert. change (in_names (f_name (text_frame ($"TDRC") (ts_display d))) ONE_PER_TAG) with false. cbv iota.
  rewrite take_first_none.
  - cbn [fst]. rewrite filter_app, M. reflexivity.
  - apply Forall_forall. intros g I. destruct g; try reflexivity. cbn [frame_eqb text_frame new_header fh_id].
    destruct (id_eqb (fh_id h0) (Valid ($"TDRC"))) eqn:E; auto. exfalso.
    assert (J : In (FText h0 e0 value) (filter (has_name ($"TDRC")) (t_frames t))) by (apply filter_In; split; auto).
    rewrite M in J. destruct J as [J|[]]. discriminate J.
Qed.
Theorem C155_get : forall t h e d rest, mine ($"TDRC") t = FTime h e d :: rest -> acc_date t = Some d.
Proof. intros t h e d rest M. unfold acc_date. rewrite get_mine, M. reflexivity. Qed.
Theorem C155_remove : forall t, let t' := acc_remove ($"TDRC") t in
  acc_date t' = None /\ Permutation (t_frames t') (others ($"TDRC") t) /\ same_head t t'.
Proof. intros t t'. destruct (remove_spec ($"TDRC") t) as [P M]. repeat split; auto. unfold acc_date. rewrite get_mine. unfold t'. rewrite M. reflexivity. Qed.
(** What is written is the same as for a timestamp frame in a 2.4 tag. *)
Theorem C155_saved : forall w d, w_v23 w = false -> ts_verify d = Ok tt ->
  leaf_bytes w (text_frame ($"TDRC") (ts_display d)) = leaf_bytes w (time_frame ($"TDRC") d).
Proof.
  intros w d W V. unfold text_frame, time_frame, new_header. cbn [leaf_bytes]. unfold text_bytes, time_bytes. rewrite V. cbn [bind as_ferr].
  unfold as_ferr. reflexivity.
Qed.
(** In a 2.3 tag the date that was set is left out. *)
Theorem C155_v23_refuted : forall d, conv23 (text_frame ($"TDRC") (ts_display d)) = CDrop.
Proof. intros. reflexivity. Qed.

Example C155_example :
  let d := mkTs 2021 (Some 3) None None None None in
  let t := with_frames id3v2_default [time_frame ($"TDRC") (mkTs 1999 None None None None None)] in
  acc_date t = Some (mkTs 1999 None None None None None) /\ acc_date (acc_set_date d t) = acc_date t /\
  acc_date (acc_set_date d id3v2_default) = None /\ ts_verify d = Ok tt /\
  t_frames (acc_set_date d id3v2_default) = [text_frame ($"TDRC") ($"2021-03")].
Proof. repeat split. Qed.

(** ** C156: the comment *)
Theorem C156_set : forall s t, let t' := acc_set_comment s t in
  acc_comment t' = Some s /\ lenN (filter is_plain_comment (t_frames t')) = 1 /\
  filter (fun f => negb (is_plain_comment f)) (t_frames t') = filter (fun f => negb (is_plain_comment f)) (t_frames t) /\ same_head t t'.
Proof.
  intros s t t'. unfold t', acc_set_comment, acc_comment.
  assert (NF : forall l, Forall (fun f => is_plain_comment f = false) l -> filter is_plain_comment l = [] /\ filter (fun f => negb (is_plain_comment f)) l = l).
  { intros l F. split. now apply filter_none. apply filter_all2. eapply Forall_impl; [|exact F]. cbv beta. intros a ->. reflexivity. }
  destruct (comment_loop_some s (t_frames t)) as [[F ->]|(a & h & e & lang & old & b & E & F & ->)]; unfold with_frames; cbn [t_frames t_version t_flags].
  - destruct (NF _ F) as [N1 N2]. rewrite filter_map_app, no_comment, !filter_app, N1 by auto. cbn. rewrite app_nil_r. repeat split; auto.
  - destruct (NF _ F) as [N1 N2]. rewrite E, filter_map_app, no_comment, !filter_app, N1, N2 by auto.
    assert (G : Forall (fun f => is_plain_comment f = false) (filter (fun f => negb (is_plain_comment f)) b)).
    { apply Forall_forall. intros f I. apply filter_In in I as [_ I]. now apply negb_true_iff. }
    destruct (NF _ G) as [N3 N4]. cbn [filter is_plain_comment negb app]. rewrite N3. cbn. rewrite N4. repeat split; auto.
Qed.
(** The language of the first comment stays; a new one has an unknown language. *)
Theorem C156_language : forall s t h e lang old rest, filter is_plain_comment (t_frames t) = FComment h e lang [] old :: rest ->
  filter is_plain_comment (t_frames (acc_set_comment s t)) = [FComment h e lang [] s].
Proof.
  intros s t h e lang old rest E. unfold acc_set_comment.
  destruct (comment_loop_some s (t_frames t)) as [[F _]|(a & h2 & e2 & lang2 & old2 & b & E2 & F & ->)].
  - rewrite filter_none in E by auto. discriminate E.
  - unfold with_frames. cbn [t_frames]. rewrite E2 in E. rewrite filter_app in *. rewrite filter_none in * by auto. cbn [filter is_plain_comment app] in *.
    injection E. intros _ -> -> -> ->. f_equal. apply filter_none. apply Forall_forall. intros f I. apply filter_In in I as [_ I]. now apply negb_true_iff.
Qed.
Theorem C156_remove : forall t, let t' := acc_remove_comment t in
  acc_comment t' = None /\ t_frames t' = filter (fun f => negb (is_plain_comment f)) (t_frames t) /\ same_head t t'.
Proof.
  intros t t'. assert (E : t_frames t' = filter (fun f => negb (is_plain_comment f)) (t_frames t)).
  { unfold t', acc_remove_comment, with_frames. cbn [t_frames]. apply filter_ext. intros f. destruct f; auto. destruct desc; auto. }
  split; [|split; auto; split; auto]. unfold acc_comment. rewrite E, no_comment; auto. apply Forall_forall. intros f I. apply filter_In in I as [_ I]. now apply negb_true_iff.
Qed.
Example C156_example :
  let t := with_frames id3v2_default [comment_frame ($"eng") ($"about") ($"x"); comment_frame ($"deu") [] ($"a"); comment_frame ($"fra") [] ($"b")] in
  acc_comment t = Some ($"a") /\
  t_frames (acc_set_comment ($"new") t) = [comment_frame ($"eng") ($"about") ($"x"); comment_frame ($"deu") [] ($"new")] /\
  t_frames (acc_remove_comment t) = [comment_frame ($"eng") ($"about") ($"x")] /\
  t_frames (acc_set_comment ($"new") id3v2_default) = [comment_frame ($"XXX") [] ($"new")].
Proof. repeat split. Qed.

(** ** C157: the genre *)
Theorem C157_set : forall s t, plain_name ($"TCON") t -> 3 < lenN (utf8_enc s) -> ~ In 0 s -> hd 0 s <> 40 ->
  tag_genres (acc_set_text ($"TCON") s t) = Some [s] /\ acc_genre (acc_set_text ($"TCON") s t) = Some s.
Proof.
  intros s t P L Z B. destruct (C153_set_text ($"TCON") s t) as (G & _); auto. cbn; tauto.
  assert (X : tag_genres (acc_set_text ($"TCON") s t) = Some [s]).
  { unfold tag_genres. rewrite G. cbn [option_map]. f_equal. unfold genres.
    destruct s as [|c s]; [discriminate L|]. cbn [length genres_iter].
    assert (F : find_char 0 (c :: s) = None).
    { clear - Z. induction (c :: s) as [|x l IH]; auto. cbn [find_char]. destruct (N.eqb_spec x 0) as [-> |]. exfalso. apply Z. now left.
      rewrite IH; auto. intros I. apply Z. now right. }
    rewrite F. assert (PG : parse_genre false (c :: s) = c :: s).
    { unfold parse_genre. replace (3 <? lenN (utf8_enc (c :: s))) with true by (symmetry; apply N.ltb_lt; lia). reflexivity. }
    rewrite PG. replace (starts 40 (c :: s)) with false. now destruct (find_char 41 (c :: s)).
    cbn [starts hd] in *. symmetry. now apply N.eqb_neq. }
  split; auto. unfold acc_genre. rewrite X. reflexivity.
Qed.
(** A genre that is a number, or the two letters of a remix, is shown as something else. *)
Theorem C157_number_refuted : forall t, plain_name ($"TCON") t ->
  acc_genre (acc_set_text ($"TCON") ($"17") t) = Some ($"Rock") /\ acc_genre (acc_set_text ($"TCON") ($"CR") t) = Some ($"Cover") /\
  acc_genre (acc_set_text ($"TCON") [] t) = None.
Proof.
  intros t P.
  destruct (C153_set_text ($"TCON") ($"17") t) as (G1 & _); auto. cbn; tauto.
  destruct (C153_set_text ($"TCON") ($"CR") t) as (G2 & _); auto. cbn; tauto.
  destruct (C153_set_text ($"TCON") [] t) as (G3 & _); auto. cbn; tauto.
  unfold acc_genre, tag_genres. rewrite G1, G2, G3. repeat split; reflexivity.
Qed.
Example C157_example :
  let t := with_frames id3v2_default [text_frame ($"TCON") ($"17" ++ [0] ++ $"Jazz")] in
  tag_genres t = Some [$"Rock"; $"Jazz"] /\ acc_genre t = Some ($"Rock / Jazz") /\
  tag_genres (with_frames id3v2_default [text_frame ($"TCON") ($"(51)(39)")]) = Some [$"Techno-Industrial"; $"Noise"].
Proof. repeat split. Qed.

Print Assumptions C153_set_text.
Print Assumptions C153_remove.
Print Assumptions C153_values.
Print Assumptions C153_hidden_refuted.
Print Assumptions C153_order_refuted.
Print Assumptions C154_set_number.
Print Assumptions C154_set_total.
Print Assumptions C154_remove_total.
Print Assumptions C154_total_only_refuted.
Print Assumptions C154_invented_refuted.
Print Assumptions C154_total_removed_refuted.
Print Assumptions C155_set_refuted.
Print Assumptions C155_old_refuted.
Print Assumptions C155_get.
Print Assumptions C155_remove.
Print Assumptions C155_saved.
Print Assumptions C155_v23_refuted.
Print Assumptions C156_set.
Print Assumptions C156_language.
Print Assumptions C156_remove.
Print Assumptions C157_set.
Print Assumptions C157_number_refuted.
