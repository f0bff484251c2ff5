From Verif Require Import BaseLemmas OggModel OggSpec OggCrcProof OggProof OggReadProof OggPacketsProof OggPagProof.

Section ChunkFacts.
Variables (abgp serial : N).

(** Induction over the chunks of a packet. *)
Lemma chunk_ind : forall (Q : bytes -> Prop),
  Q [] ->
  (forall pk, pk <> [] -> Q (dropN MAXC pk) -> Q pk) -> forall pk, Q pk.
Proof.
  intros Q H0 HS. assert (forall n pk, (length pk <= n)%nat -> Q pk).
  { induction n; intros. destruct pk; [auto|cbn in H; lia].
    destruct pk; auto. apply HS; [discriminate|]. apply IHn.
    pose proof (dropN_lt _ MAXC (n0 :: pk) ltac:(lia) ltac:(discriminate)). lia. }
  intros. apply (H (length pk)). lia.
Qed.

Definition cp ls flag0 idx pos pk := chunk_pages (length pk) abgp serial ls flag0 idx pos pk.

Lemma cp_cons : forall ls flag0 idx pos pk, pk <> [] ->
  cp ls flag0 idx pos pk =
    mkPage pos flag0 (if nonempty (dropN MAXC pk) then 2 ^ 64 - 1 else abgp) serial (idx mod 2 ^ 32)
        (repeat 255 (N.to_nat (lenN (takeN MAXC pk) / 255)) ++ (if lenN (takeN MAXC pk) =? MAXC then [] else [ls]))
        0 (takeN MAXC pk) (pos + lenN (takeN MAXC pk))
    :: cp ls 1 (idx + 1) (pos + lenN (takeN MAXC pk)) (dropN MAXC pk).
Proof.
  intros. destruct pk; [congruence|]. unfold cp at 1. cbn [length chunk_pages]. f_equal.
  apply chunk_pages_fuel; auto.
  pose proof (dropN_lt _ MAXC (n :: pk) ltac:(lia) ltac:(discriminate)). cbn [length] in *. lia.
Qed.
Lemma cp_nil : forall ls flag0 idx pos, cp ls flag0 idx pos [] = [].
Proof. reflexivity. Qed.

Lemma cp_content : forall pk ls flag0 idx pos, content_of (cp ls flag0 idx pos pk) = pk.
Proof.
  induction pk using chunk_ind; intros; [reflexivity|].
  rewrite cp_cons by auto. cbn [content_of flat_map pg_content]. fold (content_of (cp ls 1 (idx + 1) (pos + lenN (takeN MAXC pk)) (dropN MAXC pk))).
  rewrite IHpk. apply takeN_dropN.
Qed.

Lemma cp_segs : forall pk ls flag0 idx pos, ls = lenN pk mod 255 ->
  segs_of (cp ls flag0 idx pos pk) =
    repeat 255 (N.to_nat (lenN pk / 255)) ++ (if lenN pk mod MAXC =? 0 then [] else [ls]).
Proof.
  induction pk using chunk_ind; intros ls flag0 idx pos Hls; [reflexivity|].
  rewrite cp_cons by auto. cbn [segs_of flat_map pg_segs]. fold (segs_of (cp ls 1 (idx + 1) (pos + lenN (takeN MAXC pk)) (dropN MAXC pk))).
  assert (0 < lenN pk) by (destruct pk; [congruence|rewrite lenN_cons; lia]).
  rewrite lenN_takeN. destruct (N.le_gt_cases MAXC (lenN pk)) as [Hge|Hlt].
  - rewrite N.min_l by auto. change (MAXC =? MAXC) with true. cbn iota. rewrite app_nil_r.
    rewrite IHpk by (rewrite lenN_dropN; lia). rewrite lenN_dropN, app_assoc, <- repeat_app.
    f_equal.
    + f_equal. lia.
    + replace ((lenN pk - MAXC) mod MAXC) with (lenN pk mod MAXC) by lia. reflexivity.
  - rewrite N.min_r by lia. rewrite (dropN_all _ MAXC pk) by lia. rewrite cp_nil. cbn [segs_of flat_map]. rewrite app_nil_r.
    destruct (N.eqb_spec (lenN pk) MAXC); [lia|]. destruct (N.eqb_spec (lenN pk mod MAXC) 0); [lia|]. reflexivity.
Qed.

Definition small_page (p : page) : Prop :=
  1 <= lenN (pg_segs p) <= 32 /\ sumN (pg_segs p) = lenN (pg_content p) /\ pg_serial p = serial /\
  bytes_ok (pg_segs p) /\
  (abgp < 2 ^ 64 -> pg_abgp p < 2 ^ 64) /\ pg_seq p < 2 ^ 32 /\ pg_cksum p = 0 /\ pg_flag p < 8.

Lemma max64 : 2 ^ 64 - 1 < 2 ^ 64. Proof. reflexivity. Qed.

Lemma bytes_ok_repeat255 : forall n, bytes_ok (repeat 255 n).
Proof. induction n; constructor; auto. reflexivity. Qed.

Lemma cp_small : forall pk ls flag0 idx pos, ls = lenN pk mod 255 -> flag0 < 8 ->
  Forall small_page (cp ls flag0 idx pos pk).
Proof.
  induction pk using chunk_ind; intros ls flag0 idx pos Hls Hf; [constructor|].
  rewrite cp_cons by auto.
  assert (0 < lenN pk) by (destruct pk; [congruence|rewrite lenN_cons; lia]).
  constructor.
  - unfold small_page; cbn [pg_segs pg_content pg_serial pg_abgp pg_seq pg_cksum pg_flag].
    rewrite lenN_app, sumN_app, lenN_repeat, sumN_repeat, lenN_takeN.
    repeat apply conj.
    + destruct (N.eqb_spec (N.min MAXC (lenN pk)) MAXC); rewrite ?lenN_cons, ?lenN_nil; lia.
    + destruct (N.eqb_spec (N.min MAXC (lenN pk)) MAXC); rewrite ?lenN_cons, ?lenN_nil; lia.
    + destruct (N.eqb_spec (N.min MAXC (lenN pk)) MAXC); cbn [sumN]; lia.
    + auto.
    + apply Forall_app. split; [apply bytes_ok_repeat255|].
      destruct (N.min MAXC (lenN pk) =? MAXC); repeat constructor. unfold byte_ok. lia.
    + destruct (nonempty (dropN MAXC pk)); auto; intros; exact max64.
    + apply N.mod_lt. discriminate.
    + auto.
    + auto.
  - destruct (N.le_gt_cases (lenN pk) MAXC).
    + rewrite dropN_all by auto. constructor.
    + apply IHpk; [rewrite lenN_dropN|]; lia.
Qed.

Fixpoint seqs (idx : N) (n : nat) : list N :=
  match n with O => [] | S n' => idx mod 2 ^ 32 :: seqs (idx + 1) n' end.

Lemma cp_seq : forall pk ls flag0 idx pos,
  map pg_seq (cp ls flag0 idx pos pk) = seqs idx (length (cp ls flag0 idx pos pk)).
Proof.
  induction pk using chunk_ind; intros; [reflexivity|].
  rewrite cp_cons by auto. cbn [map pg_seq length seqs]. f_equal. apply IHpk.
Qed.

Definition fs (p : page) : N * list N := (pg_flag p, pg_segs p).
Fixpoint open_after (open : bool) (l : list page) : bool :=
  match l with [] => open | p :: l' => open_after (ends_open (pg_segs p)) l' end.

Lemma open_after_app : forall P Q o, open_after o (P ++ Q) = open_after (open_after o P) Q.
Proof. induction P; intros; cbn [app open_after]; auto. Qed.

Lemma flags_app : forall wf P Q isf o,
  flags_ok isf o wf false (map fs P) ->
  flags_ok (isf && negb (nonempty P)) (open_after o P) wf false (map fs Q) ->
  flags_ok isf o wf false (map fs (P ++ Q)).
Proof.
  induction P; intros Q isf o H1 H2; cbn [app map open_after nonempty negb] in *.
  - now rewrite andb_true_r in H2.
  - cbn [flags_ok fs] in *. unfold fs in H1 at 1. cbn [flags_ok] in H1. unfold fs at 1. cbn [flags_ok]. destruct H1 as [H1 H3]. split.
    + rewrite H1. rewrite !andb_false_r. reflexivity.
    + apply IHP; auto. rewrite andb_false_r in H2. cbn [andb]. exact H2.
Qed.

Lemma ends_open_full : ends_open (repeat 255 (N.to_nat 32)) = true.
Proof. reflexivity. Qed.
Lemma ends_open_last : forall l x, x < 255 -> ends_open (l ++ [x]) = false.
Proof. intros. unfold ends_open. rewrite last_last. apply N.eqb_neq. lia. Qed.

Lemma cp_flags : forall (wf : bool) pk ls flag0 idx pos (isf o : bool), ls = lenN pk mod 255 ->
  flag0 = (if o then 1 else 0) + (if isf && wf then 2 else 0) ->
  flags_ok isf o wf false (map fs (cp ls flag0 idx pos pk)) /\
  open_after o (cp ls flag0 idx pos pk) = (if nonempty pk then lenN pk mod MAXC =? 0 else o).
Proof.
  intros wf. induction pk using chunk_ind; intros ls flag0 idx pos isf o Hls Hf; [split; [exact I|reflexivity]|].
  rewrite cp_cons by auto.
  assert (0 < lenN pk) by (destruct pk; [congruence|rewrite lenN_cons; lia]).
  assert (Hne : nonempty pk = true) by (destruct pk; [congruence|reflexivity]). rewrite Hne.
  cbn [map open_after flags_ok pg_segs]. unfold fs at 1. cbn [flags_ok pg_flag pg_segs].
  rewrite lenN_takeN. destruct (N.le_gt_cases MAXC (lenN pk)) as [Hge|Hlt].
  - rewrite N.min_l by auto. change (MAXC =? MAXC) with true. cbn iota. rewrite app_nil_r.
    change (MAXC / 255) with 32. rewrite ends_open_full.
    specialize (IHpk ls 1 (idx + 1) (pos + MAXC) false true).
    destruct IHpk as [I1 I2]; [rewrite lenN_dropN; lia|reflexivity|].
    split; [split|].
    + rewrite andb_false_r, N.add_0_r. auto.
    + exact I1.
    + rewrite I2. rewrite lenN_dropN. destruct (nonempty (dropN MAXC pk)) eqn:E.
      * replace ((lenN pk - MAXC) mod MAXC) with (lenN pk mod MAXC) by lia. reflexivity.
      * assert (lenN (dropN MAXC pk) = 0) by (destruct (dropN MAXC pk); [reflexivity|discriminate]).
        rewrite lenN_dropN in H1. assert (lenN pk = MAXC) by lia. rewrite H2. reflexivity.
  - rewrite N.min_r by lia. rewrite (dropN_all _ MAXC pk) by lia. rewrite cp_nil.
    destruct (N.eqb_spec (lenN pk) MAXC); [lia|]. rewrite ends_open_last by lia. cbn [map flags_ok open_after].
    rewrite andb_false_r, N.add_0_r. repeat split; auto.
    destruct (N.eqb_spec (lenN pk mod MAXC) 0); [lia|reflexivity].
Qed.

(** Granule positions: the last page of a packet has the given one, other pages -1. *)
Lemma cp_abgp : forall pk ls flag0 idx pos p, ls = lenN pk mod 255 -> In p (cp ls flag0 idx pos pk) ->
  (packet_ends_on (pg_segs p) -> pg_abgp p = abgp) /\
  (lenN pk mod MAXC <> 0 -> ~ packet_ends_on (pg_segs p) -> pg_abgp p = 2 ^ 64 - 1) /\
  (pg_abgp p = abgp \/ pg_abgp p = 2 ^ 64 - 1).
Proof.
  induction pk using chunk_ind; intros ls flag0 idx pos p Hls Hin; [destruct Hin|].
  rewrite cp_cons in Hin by auto.
  assert (0 < lenN pk) by (destruct pk; [congruence|rewrite lenN_cons; lia]).
  destruct Hin as [<-|Hin].
  - cbn [pg_segs pg_abgp]. rewrite lenN_takeN.
    destruct (nonempty (dropN MAXC pk)) eqn:E.
    + assert (MAXC < lenN pk).
      { destruct (N.lt_ge_cases MAXC (lenN pk)); auto. rewrite dropN_all in E by auto. discriminate. }
      rewrite N.min_l by lia. change (MAXC =? MAXC) with true. cbn iota. rewrite app_nil_r.
      repeat split; auto. intros (s & Hs & Hl). apply repeat_spec in Hs. lia.
    + assert (lenN pk <= MAXC).
      { destruct (dropN MAXC pk) eqn:E2; [|discriminate]. pose proof (lenN_dropN _ MAXC pk). rewrite E2, lenN_nil in H1. lia. }
      repeat split; auto.
      intros Hm Hn. exfalso. apply Hn. rewrite N.min_r by lia.
      destruct (N.eqb_spec (lenN pk) MAXC) as [E3|]. rewrite E3 in Hm. exfalso; apply Hm; reflexivity.
      exists ls. split; [|lia]. apply in_or_app. right. left. auto.
  - destruct (N.le_gt_cases (lenN pk) MAXC).
    + rewrite dropN_all in Hin by auto. destruct Hin.
    + destruct (IHpk _ _ _ _ _ (ltac:(rewrite lenN_dropN; lia) : ls = lenN (dropN MAXC pk) mod 255) Hin) as (I1 & I2 & I3).
      repeat split; auto. intros. apply I2; auto. rewrite lenN_dropN. lia.
Qed.

(** One packet. *)
Lemma packet_pages_eq : forall flag0 idx pk,
  packet_pages abgp serial flag0 idx pk =
   let P := cp (lenN pk mod 255) flag0 idx 0 pk in
   if (nonempty pk) && (lenN pk mod MAXC =? 0) then P ++ [nil_page abgp serial (idx + lenN P) (lenN pk)] else P.
Proof. reflexivity. Qed.

Lemma content_of_app : forall P Q, content_of (P ++ Q) = content_of P ++ content_of Q.
Proof. intros; apply flat_map_app. Qed.
Lemma segs_of_app : forall P Q, segs_of (P ++ Q) = segs_of P ++ segs_of Q.
Proof. intros; apply flat_map_app. Qed.

Lemma pp_content : forall flag0 idx pk, content_of (packet_pages abgp serial flag0 idx pk) = pk.
Proof.
  intros. rewrite packet_pages_eq. cbv zeta. destruct (_ && _).
  - rewrite content_of_app, cp_content. cbn. apply app_nil_r.
  - apply cp_content.
Qed.

Lemma pp_segs : forall flag0 idx pk, segs_of (packet_pages abgp serial flag0 idx pk) = if nonempty pk then lacing pk else [].
Proof.
  intros. rewrite packet_pages_eq. cbv zeta. destruct pk as [|b pk]; [reflexivity|]. set (q := b :: pk).
  replace (nonempty q) with true by reflexivity. cbn [andb]. unfold lacing.
  destruct (N.eqb_spec (lenN q mod MAXC) 0) as [E|E].
  - rewrite segs_of_app, cp_segs by auto. rewrite E. change (0 =? 0) with true. cbn iota. rewrite app_nil_r.
    f_equal. cbn. f_equal. lia.
  - rewrite cp_segs by auto. destruct (N.eqb_spec (lenN q mod MAXC) 0); [lia|reflexivity].
Qed.

Lemma pp_small : forall flag0 idx pk, flag0 < 8 -> Forall small_page (packet_pages abgp serial flag0 idx pk).
Proof.
  intros. rewrite packet_pages_eq. cbv zeta.
  assert (Forall small_page (cp (lenN pk mod 255) flag0 idx 0 pk)) by (apply cp_small; auto).
  destruct (_ && _); auto. apply Forall_app. split; auto. constructor; auto.
  unfold small_page, nil_page. cbn [pg_segs pg_content pg_serial pg_abgp pg_seq pg_cksum pg_flag].
  repeat apply conj; auto; try reflexivity; try (unfold lenN; cbn [length]; lia).
  - repeat constructor.
Qed.

Lemma seqs_app : forall n m idx, seqs idx (n + m) = seqs idx n ++ seqs (idx + N.of_nat n) m.
Proof.
  induction n; intros; cbn [Nat.add seqs app].
  - now replace (idx + N.of_nat 0) with idx by lia.
  - f_equal. rewrite IHn. do 2 f_equal. lia.
Qed.

Lemma pp_seq : forall flag0 idx pk,
  map pg_seq (packet_pages abgp serial flag0 idx pk) = seqs idx (length (packet_pages abgp serial flag0 idx pk)).
Proof.
  intros. rewrite packet_pages_eq. cbv zeta. destruct (_ && _); [|apply cp_seq].
  rewrite map_app, app_length, seqs_app, cp_seq. reflexivity.
Qed.

Lemma pp_flags : forall (wf : bool) flag0 idx pk (isf : bool),
  flag0 = (if isf && wf then 2 else 0) ->
  flags_ok isf false wf false (map fs (packet_pages abgp serial flag0 idx pk)) /\
  open_after false (packet_pages abgp serial flag0 idx pk) = false.
Proof.
  intros wf flag0 idx pk isf Hf. rewrite packet_pages_eq. cbv zeta.
  destruct (cp_flags wf pk (lenN pk mod 255) flag0 idx 0 isf false eq_refl Hf) as [H1 H2].
  destruct pk as [|b pk]; [split; [exact I|reflexivity]|]. set (q := b :: pk) in *.
  replace (nonempty q) with true in * by reflexivity. cbn [andb].
  destruct (N.eqb_spec (lenN q mod MAXC) 0) as [E|E]; [|split; auto].
  assert (Hne : nonempty (cp (lenN q mod 255) flag0 idx 0 q) = true) by (rewrite cp_cons; [reflexivity|discriminate]).
  split.
  - apply flags_app; auto. rewrite H2, Hne. cbn [negb]. rewrite andb_false_r. cbn. auto.
  - rewrite open_after_app. reflexivity.
Qed.

Lemma pp_abgp : forall flag0 idx pk p, In p (packet_pages abgp serial flag0 idx pk) ->
  (packet_ends_on (pg_segs p) -> pg_abgp p = abgp) /\
  (lenN pk mod MAXC <> 0 -> ~ packet_ends_on (pg_segs p) -> pg_abgp p = 2 ^ 64 - 1) /\
  (pg_abgp p = abgp \/ pg_abgp p = 2 ^ 64 - 1).
Proof.
  intros flag0 idx pk p Hin. rewrite packet_pages_eq in Hin. cbv zeta in Hin.
  destruct (_ && _) eqn:E; [|eapply cp_abgp; eauto].
  apply in_app_or in Hin as [Hin|[<-|[]]]; [eapply cp_abgp; eauto|].
  cbn [nil_page pg_segs pg_abgp]. repeat split; auto.
  intros _ Hn. exfalso. apply Hn. exists 0. split; [now left|reflexivity].
Qed.

(** All packets. *)
Lemma all_content : forall wf ps isf idx, content_of (all_pages abgp serial wf isf idx ps) = concat ps.
Proof.
  intros wf. induction ps; intros; cbn [all_pages concat]; auto.
  rewrite content_of_app, pp_content, IHps. reflexivity.
Qed.
Lemma all_segs : forall wf ps isf idx,
  segs_of (all_pages abgp serial wf isf idx ps) = flat_map lacing (filter (@nonempty N) ps).
Proof.
  intros wf. induction ps; intros; cbn [all_pages filter]; auto.
  rewrite segs_of_app, pp_segs, IHps. destruct (nonempty a); reflexivity.
Qed.
Lemma all_small : forall wf ps isf idx, Forall small_page (all_pages abgp serial wf isf idx ps).
Proof.
  intros wf. induction ps; intros; cbn [all_pages]; auto.
  apply Forall_app. split; auto. apply pp_small. destruct (isf && wf); reflexivity.
Qed.
Lemma all_seq : forall wf ps isf idx,
  map pg_seq (all_pages abgp serial wf isf idx ps) = seqs idx (length (all_pages abgp serial wf isf idx ps)).
Proof.
  intros wf. induction ps; intros; cbn [all_pages]; auto.
  rewrite map_app, app_length, seqs_app, pp_seq, IHps. reflexivity.
Qed.
Lemma pp_nonempty : forall flag0 idx pk, nonempty (packet_pages abgp serial flag0 idx pk) = nonempty pk.
Proof.
  intros. rewrite packet_pages_eq. cbv zeta. destruct pk as [|b pk]; [reflexivity|].
  rewrite cp_cons by discriminate. destruct (_ && _); reflexivity.
Qed.
Lemma all_flags : forall wf ps isf idx, flags_ok isf false wf false (map fs (all_pages abgp serial wf isf idx ps)).
Proof.
  intros wf. induction ps; intros; cbn [all_pages]; [exact I|].
  destruct (pp_flags wf (if isf && wf then FIRST_PAGE else 0) idx a isf eq_refl) as [H1 H2].
  apply flags_app; auto. rewrite H2, pp_nonempty. apply IHps.
Qed.
Lemma all_abgp : forall wf ps isf idx p, In p (all_pages abgp serial wf isf idx ps) ->
  (packet_ends_on (pg_segs p) -> pg_abgp p = abgp) /\
  (Forall (fun pk => pk = [] \/ lenN pk mod MAXC <> 0) ps -> ~ packet_ends_on (pg_segs p) -> pg_abgp p = 2 ^ 64 - 1) /\
  (pg_abgp p = abgp \/ pg_abgp p = 2 ^ 64 - 1).
Proof.
  intros wf. induction ps; intros isf idx p Hin; cbn [all_pages] in Hin; [destruct Hin|].
  apply in_app_or in Hin as [Hin|Hin].
  - destruct a as [|b a]; [destruct Hin|].
    apply pp_abgp in Hin as (H1 & H2 & H3). repeat split; auto. intros HF. inversion HF; subst.
    destruct H4 as [H4|H4]; [discriminate|]. auto.
  - apply IHps in Hin as (H1 & H2 & H3). repeat split; auto. intros HF. inversion HF; subst. auto.
Qed.
End ChunkFacts.

(** mark_last *)
Lemma mark_last_map : forall A (f : page -> A), (forall g p, f (set_flag g p) = f p) ->
  forall l, map f (mark_last l) = map f l.
Proof.
  intros A f Hf. induction l; [reflexivity|]. cbn [mark_last]. destruct l; cbn [map] in *.
  - now rewrite Hf. - now rewrite IHl.
Qed.
Lemma mark_last_flat : forall (f : page -> list N), (forall g p, f (set_flag g p) = f p) ->
  forall l, flat_map f (mark_last l) = flat_map f l.
Proof. intros. rewrite !flat_map_concat_map. f_equal. now apply mark_last_map. Qed.
Lemma mark_last_in : forall l p, In p (mark_last l) -> In p l \/ exists q, In q l /\ p = set_flag (N.lor (pg_flag q) LAST_PAGE) q.
Proof.
  induction l; intros; [destruct H|]. cbn [mark_last] in H. destruct l.
  - destruct H as [<-|[]]. right. exists a. split; auto. now left.
  - destruct H as [<-|H]; [left; now left|]. apply IHl in H as [H|(q & H & ->)]; [left; now right|right].
    exists q. split; auto. now right.
Qed.
Lemma lor4 : forall f, f < 4 -> N.lor f 4 = f + 4.
Proof. intros. apply (lor_add f 1 2). exact H. Qed.
Lemma flags_small : forall wf l isf o, flags_ok isf o wf false (map fs l) -> Forall (fun p => pg_flag p < 4) l.
Proof.
  intros wf. induction l; intros isf o H; constructor; cbn [map flags_ok] in H; unfold fs at 1 in H; cbn [flags_ok] in H; destruct H as [H1 H2].
  - rewrite H1, andb_false_r. destruct o, (isf && wf); reflexivity.
  - eapply IHl; eauto.
Qed.
Lemma mark_last_flags : forall wf l isf o, flags_ok isf o wf false (map fs l) -> flags_ok isf o wf true (map fs (mark_last l)).
Proof.
  intros wf. induction l; intros isf o H; [exact I|].
  pose proof (flags_small _ _ _ _ H) as Hs. inversion Hs; subst.
  cbn [map] in H. unfold fs at 1 in H. cbn [flags_ok] in H. destruct H as [H1 H0].
  cbn [mark_last]. destruct l.
  - cbn [map flags_ok fs set_flag pg_flag pg_segs]. split; auto. change LAST_PAGE with 4. rewrite lor4 by auto.
    rewrite H1. rewrite andb_false_r. cbn [andb]. lia.
  - cbn [map]. unfold fs at 1. cbn [flags_ok]. split.
    + rewrite H1, !andb_false_r. destruct (mark_last (p :: l)) eqn:E; [|reflexivity].
      exfalso. clear -E. revert p E. induction l; cbn; intros; try discriminate.
    + apply IHl. exact H0.
Qed.
