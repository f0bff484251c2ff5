(** Lemmas about the type of a file behind its changes: the parts of WAV and AIFF files that are kept. *)
From Verif Require Import BaseLemmas StrLemmas IffModel IffProof2 AiffModel FileModel.

(** ** The first 4 bytes and bytes 8 to 12 *)
Definition same_head (v w : bytes) : Prop := 12 <= lenN w /\ takeN 4 w = takeN 4 v /\ takeN 4 (dropN 8 w) = takeN 4 (dropN 8 v).
Lemma same_refl : forall v, 12 <= lenN v -> same_head v v. Proof. intros. split; auto. Qed.
Lemma same_trans : forall a b c, same_head a b -> same_head b c -> same_head a c.
Proof. intros a b c (A1 & A2 & A3) (B1 & B2 & B3). split; [auto|]. split; congruence. Qed.
Lemma same_take : forall v w, 12 <= lenN w -> takeN 12 w = takeN 12 v -> same_head v w.
Proof.
  intros v w L E. split; auto. assert (T : forall x : bytes, takeN 4 x = takeN 4 (takeN 12 x)) by (intros x; unfold takeN; rewrite firstn_firstn; f_equal).
  assert (D : forall x : bytes, takeN 4 (dropN 8 x) = dropN 8 (takeN 12 x)). { intros x. unfold takeN, dropN. change (N.to_nat 12) with (N.to_nat 8 + N.to_nat 4)%nat. now rewrite firstn_skipn_comm. }
  split. rewrite (T w), (T v). now rewrite E. rewrite !D. now rewrite E.
Qed.
Lemma splice_same : forall E a b new v w, splice (E := E) a b new v = Ok w -> 12 <= a -> same_head v w.
Proof.
  intros E a b new v w H A. unfold splice in H. destruct (N.ltb_spec b a); [discriminate|]. destruct (N.ltb_spec (lenN v) b); [discriminate|]. cbn [orb] in H. injection H as <-.
  apply same_take. rewrite lenN_app, lenN_takeN. lia. rewrite takeN_app_le by (rewrite lenN_takeN; lia). unfold takeN. rewrite firstn_firstn. f_equal. lia.
Qed.
Lemma write_same : forall a new v, 12 <= a -> 12 <= lenN v -> same_head v (write_at a new v).
Proof.
  intros a new v A L. unfold write_at. apply same_take. rewrite lenN_app, lenN_takeN. lia. rewrite takeN_app_le by (rewrite lenN_takeN; lia). unfold takeN. rewrite firstn_firstn. f_equal. lia.
Qed.
Lemma trunc_same : forall a v, 12 <= a -> 12 <= lenN v -> same_head v (set_len a v).
Proof.
  intros a v A L. unfold set_len. apply same_take. rewrite lenN_app, lenN_takeN. lia. rewrite takeN_app_le by (rewrite lenN_takeN; lia). unfold takeN. rewrite firstn_firstn. f_equal. lia.
Qed.
Lemma size_same : forall f v, lenN f = 4 -> 12 <= lenN v -> same_head v (write_at 4 f v).
Proof.
  intros f v F L. unfold write_at. replace (4 - lenN v) with 0 by lia. change (repeat 0 (N.to_nat 0)) with (@nil N). cbn [app]. rewrite F. change (4 + 4) with 8.
  assert (L4 : lenN (takeN 4 v) = 4) by (rewrite lenN_takeN; lia). split. rewrite !lenN_app, lenN_dropN. lia. split. now rewrite takeN_app.
  rewrite (app_assoc (takeN 4 v)). rewrite dropN_app by (rewrite lenN_app; lia). reflexivity.
Qed.
Lemma splice_size_same : forall E f v w, splice (E := E) 4 8 f v = Ok w -> lenN f = 4 -> 12 <= lenN v -> same_head v w.
Proof.
  intros E f v w H F L. unfold splice in H. change (8 <? 4) with false in H. destruct (N.ltb_spec (lenN v) 8); [discriminate|]. injection H as <-.
  replace (takeN 4 v ++ f ++ dropN 8 v) with (write_at 4 f v); [now apply size_same|]. unfold write_at. replace (4 - lenN v) with 0 by lia. now rewrite F.
Qed.

(** ** Positions of chunks *)
Lemma correct_pos : forall s size s', correct_position s size = Ok s' -> c_pos s <= c_pos s'.
Proof.
  intros [total rem csize crem lk rest pos] size s' H. cbn [correct_position] in H. destruct (N.even size || (rem <? 1)). { injection H as <-. cbn. lia. }
  destruct (iord (read_u8 rest)) as [[b r]| |]; cbn [bind] in H; try discriminate. destruct (negb (b =? 0) && (4 <? rem)).
  - destruct (iord (read_exact 3 r)) as [[x y]| |]; cbn [bind] in H; try discriminate. destruct (valid_fourcc (b :: x)); injection H as <-; cbn; lia.
  - injection H as <-. cbn. lia.
Qed.
Lemma skip_pos : forall s s', skip s = Ok s' -> c_pos s <= c_pos s'.
Proof.
  intros [total rem csize crem lk rest pos] s' H. cbn [skip] in H.
  destruct (correct_position _ csize) as [[a b c d e f g]| |] eqn:E; cbn [bind] in H; try discriminate. injection H as <-. apply correct_pos in E. cbn [c_pos] in *. destruct (0 <? crem); cbn [c_pos] in E; lia.
Qed.
Lemma next_pos : forall be m s c s', next be m s = Ok (Some c, s') -> c_pos s + 8 <= c_pos s'.
Proof.
  intros be m s c s' H. unfold next in H. destruct (skip s) as [[a b c0 d e f g]| |] eqn:E; cbn [bind] in H; try discriminate. apply skip_pos in E. cbn [c_pos] in E.
  destruct (b <? 8); [discriminate|]. destruct (iord (read_exact 4 f)) as [[id r]| |]; cbn [bind] in H; try discriminate. destruct (valid_fourcc id); cbn [negb] in H; [|destruct (is_strict m); discriminate].
  destruct (iord (read_exact 4 r)) as [[z r']| |]; cbn [bind] in H; try discriminate. destruct (b <? _); [destruct (is_strict m); discriminate|]. injection H as <- <-. cbn [c_pos]. lia.
Qed.
Lemma read_pos : forall n s x s', chunk_read n s = Ok (x, s') -> c_pos s' = c_pos s + n.
Proof.
  intros n [total rem csize crem lk rest pos] x s' H. cbn [chunk_read] in H. destruct (crem <? n); [discriminate|]. destruct (iord (read_exact n rest)) as [[y r]| |]; cbn [bind] in H; try discriminate. injection H as <- <-. reflexivity.
Qed.
Lemma info_pos : forall fuel m s pos size, find_info_list fuel m s = Ok (Some (pos, size)) -> c_pos s + 12 <= pos.
Proof.
  induction fuel as [|fuel IH]; intros m s pos size H; [discriminate|]. cbn [find_info_list] in H. destruct (next false m s) as [[[c|] s1]| |] eqn:E; cbn [bind] in H; try discriminate. apply next_pos in E.
  destruct (negb _). { apply IH in H. lia. } destruct (chunk_read 4 s1) as [[ty s2]| |] eqn:R; cbn [bind] in H; try discriminate. apply read_pos in R.
  destruct (list_eqb ty ($"INFO")). { injection H as <- <-. lia. } apply IH in H. lia.
Qed.
Lemma id3_pos : forall fuel be m s a b, find_id3_chunk fuel be m s = Ok (Some (a, b)) -> 12 <= a.
Proof.
  induction fuel as [|fuel IH]; intros be m s a b H; [discriminate|]. cbn [find_id3_chunk] in H. destruct (next be m s) as [[[c|] s1]| |] eqn:E; cbn [bind] in H; try discriminate.
  destruct (_ || _); [|now apply IH in H]. destruct (skip s1) as [s2| |]; cbn [bind] in H; try discriminate. injection H as <- <-. lia.
Qed.
Lemma text_pos : forall fuel m s texts comm l c, find_text_chunks fuel m s texts comm = Ok (l, c) -> Forall (fun r => 12 <= fst r) texts -> (forall x, comm = Some x -> 12 <= x) ->
  Forall (fun r => 12 <= fst r) l /\ forall x, c = Some x -> 12 <= x.
Proof.
  induction fuel as [|fuel IH]; intros m s texts comm l c H F C; [discriminate|]. cbn [find_text_chunks] in H. destruct (next true m s) as [[[k|] s1]| |] eqn:E; cbn [bind] in H; try discriminate.
  2:{ injection H as <- <-. auto. }
  destruct (is_text_id (k_fourcc k)).
  - destruct (skip s1) as [s2| |]; cbn [bind] in H; try discriminate. eapply IH; eauto. apply Forall_app. split; auto. constructor; [cbn; lia|constructor].
  - destruct (list_eqb _ _).
    + destruct (skip s1) as [s2| |]; cbn [bind] in H; try discriminate. eapply IH; eauto. intros x X. injection X as <-. lia.
    + eapply IH; eauto.
Qed.
Lemma sort_all : forall (P : N * N -> Prop) l, Forall P l -> Forall P (sort_ranges l).
Proof.
  intros P l F. induction F as [|x l X F IH]; [constructor|]. cbn [sort_ranges fold_right]. fold (sort_ranges l). revert IH. generalize (sort_ranges l). intros k K. clear F. induction K as [|y k Y K IHk]; cbn [insert_range].
  - auto.
  - destruct (_ <=? _); auto.
Qed.
Lemma drain_same : forall l v w, drain_all l v = Ok w -> Forall (fun r => 12 <= fst r) l -> 12 <= lenN v -> same_head v w.
Proof.
  induction l as [|[a b] l IH]; intros v w H F L. { injection H as <-. now apply same_refl. }
  cbn [drain_all] in H. destruct (splice a b [] v) as [u| |] eqn:E; cbn [bind] in H; try discriminate. inversion F; subst. apply splice_same in E; auto. eapply same_trans; [exact E|]. apply IH; auto. apply E.
Qed.

(** ** The writers *)
Lemma riff_same : forall m data t log, write_riff_info m data t = Ok log -> 12 <= lenN data -> same_head data (apply_log data log).
Proof.
  intros m data t log H L. unfold write_riff_info in H. destruct (verify_wav data) as [[slen r]| |]; cbn [bind] in H; try discriminate. destruct (create_riff_info t) as [info| |]; cbn [bind] in H; try discriminate.
  destruct (U32_MAX <? slen + 8); [discriminate|]. destruct (N.ltb_spec (lenN data) (slen + 8)); [discriminate|]. destruct (N.ltb_spec slen 4); [discriminate|].
  destruct (find_info_list _ _ _) as [[[pos size]|]| |] eqn:E; cbn [bind] in H; try discriminate.
  - apply info_pos in E. cbn [chunks_new c_pos] in E. destruct (U32_MAX <? 8 + size); [discriminate|]. destruct (slen <? 8 + size); [discriminate|]. destruct (U32_MAX <? _); [discriminate|].
    destruct (splice (pos - 12) _ info data) as [v| |] eqn:S1; cbn [bind] in H; try discriminate. apply splice_same in S1; [|lia].
    destruct (splice 4 8 _ v) as [w| |] eqn:S2; cbn [bind] in H; try discriminate. injection H as <-. rewrite rewrite_all_spec. eapply same_trans; [exact S1|]. eapply splice_size_same; [exact S2|apply le_enc_len|apply S1].
  - destruct (U32_MAX <? _); [discriminate|]. destruct (splice (slen + 8) _ info data) as [v| |] eqn:S1; cbn [bind] in H; try discriminate. apply splice_same in S1; [|lia].
    inversion H. rewrite rewrite_all_spec. eapply same_trans; [exact S1|]. apply size_same; [reflexivity|apply S1].
Qed.
Lemma field_len : forall be x f, size_field be x = Ok f -> lenN f = 4.
Proof. intros be x f H. unfold size_field in H. destruct (_ <? 8); [discriminate|]. injection H as <-. unfold enc32. destruct be; [apply be_enc_len|apply le_enc_len]. Qed.
Lemma id3_same : forall be m upper padding data tag log, write_id3_chunk be m upper padding data tag = Ok log -> 12 <= lenN data -> (forall s r, id3_context be m data = Ok (s, r) -> 12 <= s) ->
  same_head data (apply_log data log).
Proof.
  intros be m upper padding data tag log H L S12. unfold write_id3_chunk in H. set (ts := (_ + _)%N) in H. set (chunk := id3v2_chunk be upper tag) in H.
  destruct (id3_context be m data) as [[stream existing]| |] eqn:E; cbn [bind] in H; try discriminate. specialize (S12 _ _ eq_refl).
  assert (EX : forall a b, existing = Some (a, b) -> 12 <= a).
  { intros a b ->. unfold id3_context in E. destruct (next be m _) as [[[c|] s]| |]; cbn [bind] in E; try discriminate. destruct (lenN data <? k_size c + 8); [discriminate|].
    destruct (find_id3_chunk _ _ _ _) as [r| |] eqn:F; cbn [bind] in E; try discriminate. injection E as _ ->. now apply id3_pos in F. }
  assert (WHOLE : forall log, (let? v := splice stream stream (match tag with [] => [] | _ => chunk end) data in
    let? (stream, v) := (match existing with
      | None => Ok (stream, v)
      | Some (a, b) => let? stream := sub64 stream (b - a) in let? v := splice a b [] v in Ok (stream, v)
      end) in
    let? f := size_field be (stream + ts) in
    Ok (rewrite_all (write_at 4 f v))) = Ok log -> same_head data (apply_log data log)).
  { clear H log. intros log H. destruct (splice stream stream _ data) as [v| |] eqn:S1; cbn [bind] in H; try discriminate. apply splice_same in S1; auto.
    assert (K : exists s v', (match existing with None => Ok (stream, v) | Some (a, b) => let? stream := sub64 stream (b - a) in let? v := splice a b [] v in Ok (stream, v) end) = Ok (s, v') /\ same_head data v' /\
      (let? f := size_field be (s + ts) in Ok (rewrite_all (write_at 4 f v'))) = Ok log).
    { destruct existing as [[a b]|]; [|eauto]. destruct (sub64 stream (b - a)) as [s| |]; cbn [bind] in *; try discriminate. destruct (splice a b [] v) as [v'| |] eqn:S2; cbn [bind] in *; try discriminate.
      exists s, v'. split; auto. split; auto. eapply same_trans; [exact S1|]. eapply splice_same; eauto. }
    destruct K as (s & v' & _ & K & H'). destruct (size_field be (s + ts)) as [f| |] eqn:SF; cbn [bind] in H'; try discriminate. injection H' as <-. rewrite rewrite_all_spec. eapply same_trans; [exact K|]. apply size_same; [eapply field_len; eauto|apply K]. }
  destruct existing as [[a b]|].
  2:{ destruct tag; [|auto]. injection H as <-. now apply same_refl. }
  specialize (EX a b eq_refl). set (old := b - a) in *.
  destruct ((b =? stream) && (lenN data =? stream)) eqn:B.
  { apply andb_prop in B as [B1 B2]. apply N.eqb_eq in B1, B2.
    assert (FIN : forall ops len, same_head data (apply_log data ops) -> (let? f := size_field be len in Ok (ops ++ [OpWrite 4 f])) = Ok log -> same_head data (apply_log data log)).
    { intros ops len K X. destruct (size_field be len) as [f| |] eqn:SF; cbn [bind] in X; try discriminate. injection X as <-. unfold apply_log in *. rewrite fold_left_app. cbn [fold_left apply_op]. eapply same_trans; [exact K|]. apply size_same; [eapply field_len; eauto|apply K]. }
    destruct tag as [|t0 tag].
    - destruct (sub64 stream old) as [len| |]; cbn [bind] in H; try discriminate. eapply FIN; [|exact H]. cbn [apply_log fold_left apply_op]. now apply trunc_same.
    - destruct (N.ltb_spec ts old).
      + destruct (sub64 stream _) as [len| |]; cbn [bind] in H; try discriminate. eapply FIN; [|exact H]. cbn [apply_log fold_left apply_op]. assert (K : same_head data (write_at a chunk data)) by (apply write_same; auto).
        eapply same_trans; [exact K|]. apply trunc_same; [unfold old in *; lia|apply K].
      + destruct (sub64 stream _) as [len| |]; cbn [bind] in H; try discriminate. eapply FIN; [|exact H]. cbn [apply_log fold_left apply_op]. now apply write_same. }
  destruct (negb be && padding); [|auto]. destruct tag as [|t0 tag].
  - injection H as <-. cbn [apply_log fold_left apply_op]. now apply write_same.
  - destruct (sub64 old 8) as [room| |]; cbn [bind] in H; try discriminate. destruct (ts <=? room); [|auto]. injection H as <-. cbn [apply_log fold_left apply_op].
    assert (K : same_head data (write_at a chunk data)) by (apply write_same; auto). eapply same_trans; [exact K|]. apply write_same; [lia|apply K].
Qed.
Lemma aiff_same : forall m data t log, write_aiff_text m data t = Ok log -> 12 <= lenN data -> same_head data (apply_log data log).
Proof.
  intros m data t log H L. unfold write_aiff_text in H. destruct (verify_aiff data) as [[k r]| |]; cbn [bind] in H; try discriminate. destruct (create_text_chunks t) as [text| |]; cbn [bind] in H; try discriminate.
  destruct (find_text_chunks _ _ _ _ _) as [[texts comm]| |] eqn:E; cbn [bind] in H; try discriminate. apply text_pos in E as [F C]; [|constructor|discriminate].
  destruct comm as [comm|]; [|discriminate]. specialize (C _ eq_refl).
  assert (K : forall v, (match rev (sort_ranges texts) with
        | [] => splice comm comm text data
        | l => let? v := drain_all (removelast l) data in splice (fst (last l (0, 0))) (snd (last l (0, 0))) text v
        end) = Ok v -> same_head data v).
  { assert (FR : Forall (fun r => 12 <= fst r) (rev (sort_ranges texts))) by (apply Forall_rev; now apply sort_all). revert FR. generalize (rev (sort_ranges texts)). intros l FR v X.
    destruct l as [|x l]. { eapply splice_same; eauto. }
    assert (SP := app_removelast_last (0, 0) (ltac:(discriminate) : x :: l <> [])). rewrite SP in FR. apply Forall_app in FR as [F1 F2]. apply Forall_inv in F2. cbv zeta in X. clear SP.
    destruct (drain_all (removelast (x :: l)) data) as [v'| |] eqn:D; cbn [bind] in X; try discriminate. apply drain_same in D; auto. eapply same_trans; [exact D|]. eapply splice_same; eauto. }
  destruct (match rev (sort_ranges texts) with [] => _ | _ => _ end) as [v| |]; cbn [bind] in H; try discriminate. specialize (K _ eq_refl).
  destruct (splice 4 8 _ v) as [w| |] eqn:S2; cbn [bind] in H; try discriminate. injection H as <-. rewrite rewrite_all_spec. eapply same_trans; [exact K|]. eapply splice_size_same; [exact S2|apply be_enc_len|apply K].
Qed.
