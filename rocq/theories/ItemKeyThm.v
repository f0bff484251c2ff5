(** Property theorems for the key tables (C23, C24). *)
From Verif Require Import BaseLemmas StrLemmas ItemKeyModel.

Lemma ik_eqb_eq : forall a b, ik_eqb a b = true <-> a = b.
Proof.
  intros. unfold ik_eqb. rewrite N.eqb_eq. split; [|congruence]. intro H.
  assert (R : forall k, nth_error all_keys (N.to_nat (ik_index k)) = Some k) by (intros []; reflexivity).
  pose proof (R a) as A. rewrite H in A. rewrite (R b) in A. congruence.
Qed.
Lemma all_keys_in : forall k, In k all_keys.
Proof. intro k. assert (R : nth_error all_keys (N.to_nat (ik_index k)) = Some k) by (destruct k; reflexivity). eapply nth_error_In; eauto. Qed.
Lemma for_keys : forall f, forallb f all_keys = true -> forall k, f k = true.
Proof. intros f H k. rewrite forallb_forall in H. apply H. apply all_keys_in. Qed.

Fixpoint distinct_ci (m : list (str * list item_key)) : bool :=
  match m with
  | [] => true
  | e :: m' => negb (existsb (fun e' => eq_ignore_case (fst e) (fst e')) m') && distinct_ci m'
  end.
Lemma find_perm : forall A (f : A -> bool) l l', Permutation l l' ->
  (forall x y, In x l -> In y l -> f x = true -> f y = true -> x = y) -> find f l = find f l'.
Proof.
  intros A f l l' P U. destruct (find f l) as [x|] eqn:E.
  - apply find_some in E as [I F]. destruct (find f l') as [y|] eqn:E'.
    + apply find_some in E' as [I' F']. f_equal. apply U; auto. eapply Permutation_in; [symmetry|]; eauto.
    + exfalso. assert (I2 : In x l') by (eapply Permutation_in; eauto). pose proof (find_none _ _ E' x I2). congruence.
  - destruct (find f l') as [y|] eqn:E'; auto. apply find_some in E' as [I' F'].
    assert (I : In y l) by (eapply Permutation_in; [symmetry|]; eauto). pose proof (find_none _ _ E y I). congruence.
Qed.
Lemma distinct_ci_spec : forall m x y, distinct_ci m = true -> In x m -> In y m -> eq_ignore_case (fst x) (fst y) = true -> x = y.
Proof.
  induction m as [|e m IH]; intros x y D X Y E. destruct X. cbn [distinct_ci] in D. apply andb_prop in D as [D1 D2]. apply negb_true_iff in D1.
  assert (N : forall z, In z m -> eq_ignore_case (fst e) (fst z) = false).
  { intros z Z. destruct (eq_ignore_case (fst e) (fst z)) eqn:F; auto. exfalso. rewrite <- not_true_iff_false in D1. apply D1. apply existsb_exists. eauto. }
  destruct X as [<-|X], Y as [<-|Y]; auto. rewrite N in E by auto. discriminate. rewrite eq_ignore_case_sym, N in E by auto. discriminate.
Qed.
Lemma tables_distinct : forall tt, distinct_ci (instance (table tt)) = true.
Proof. intros []; vm_compute; reflexivity. Qed.

(** C24: in whatever order the HashMap is iterated, the result is the same, and it depends only on the lower-case form. *)
Theorem C24_order_and_case : forall tt s s' order, Permutation order (instance (table tt)) -> lower s = lower s' ->
  get_item_key order s' = from_key tt s.
Proof.
  intros tt s s' order P L. unfold from_key, get_item_key.
  assert (F : find (fun e => eq_ignore_case (fst e) s') order = find (fun e => eq_ignore_case (fst e) s) (instance (table tt))).
  { assert (X : forall l : list (str * list item_key), find (fun e => eq_ignore_case (fst e) s') l = find (fun e => eq_ignore_case (fst e) s) l).
    { induction l; cbn; auto. unfold eq_ignore_case at 1 3. rewrite L. destruct (list_eqb _ _); auto. }
    rewrite X. apply find_perm; auto. intros x y X1 Y1 FX FY. apply (distinct_ci_spec (instance (table tt))). apply tables_distinct.
    eapply Permutation_in; eauto. eapply Permutation_in; eauto. eapply eq_ignore_case_trans; [exact FX|]. rewrite eq_ignore_case_sym. exact FY. }
  now rewrite F.
Qed.
Print Assumptions C24_order_and_case.
Example C24_ex : from_key VorbisComments ($"Album Artist") = Some KAlbumArtist /\ from_key Ape ($"tItLe") = Some KTrackTitle.
Proof. vm_compute. auto. Qed.

(** C23 *)
Definition exceptions : list (tag_type * item_key * item_key) :=
  [(Ape, KDiscNumber, KDiscTotal); (Ape, KTrackNumber, KTrackTotal); (Ape, KYear, KRecordingDate);
   (Id3v2, KWriter, KLyricist); (Id3v2, KLabel, KPublisher); (Id3v2, KDiscNumber, KDiscTotal); (Id3v2, KTrackNumber, KTrackTotal);
   (Id3v2, KMovementNumber, KMovementTotal); (Id3v2, KEncoderSoftware, KEncoderSettings);
   (Mp4Ilst, KDiscNumber, KDiscTotal); (Mp4Ilst, KTrackNumber, KTrackTotal); (Mp4Ilst, KUnsyncLyrics, KLyrics)].
Definition row_ok (tt : tag_type) (k : item_key) : bool :=
  match map_key tt k with
  | None => true
  | Some s => match from_key tt s with
              | None => false
              | Some k' => match map_key tt k' with Some s' => list_eqb s s' | None => false end &&
                  (ik_eqb k k' || existsb (fun e => let '(t, a, b) := e in tt_eqb tt t && ik_eqb k a && ik_eqb k' b) exceptions)
              end
  end.
Lemma rows_ok : forall tt k, row_ok tt k = true.
Proof. intros tt. apply for_keys. destruct tt; vm_compute; reflexivity. Qed.
Theorem C23_tables : forall tt k s, map_key tt k = Some s ->
  exists k', from_key tt s = Some k' /\ map_key tt k' = Some s /\ (k' = k \/ In (tt, k, k') exceptions).
Proof.
  intros tt k s H. pose proof (rows_ok tt k) as R. unfold row_ok in R. rewrite H in R. destruct (from_key tt s) as [k'|]; [|discriminate].
  exists k'. split; auto. apply andb_prop in R as [R1 R2]. destruct (map_key tt k') as [s'|]; [|discriminate]. apply list_eqb_eq in R1. subst s'.
  split; auto. apply orb_prop in R2 as [R2|R2]. left. symmetry. now apply ik_eqb_eq. right. apply existsb_exists in R2 as ([[t a] b] & I & E).
  apply andb_prop in E as [E E3]. apply andb_prop in E as [E1 E2]. apply ik_eqb_eq in E2, E3. subst. replace tt with t; auto. destruct tt, t; (reflexivity || discriminate).
Qed.
Print Assumptions C23_tables.
(** Whatever [from_key] returns can be written back. *)
Theorem C23_from_key_mapped : forall tt s k, from_key tt s = Some k -> exists s', map_key tt k = Some s' /\ from_key tt s' = Some k.
Proof.
  intros tt s k H. unfold from_key, get_item_key in H. destruct (find _ _) as [[s0 v]|] eqn:E; [|discriminate]. apply find_some in E as [I _].
  assert (A : forallb (fun e => match hd_error (snd e) with Some k => match map_key tt k with Some s' => match from_key tt s' with Some k' => ik_eqb k' k | None => false end | None => false end | None => true end) (instance (table tt)) = true) by (destruct tt; vm_compute; reflexivity).
  rewrite forallb_forall in A. specialize (A _ I). cbn [snd] in A. rewrite H in A. destruct (map_key tt k) as [s'|]; [|discriminate]. destruct (from_key tt s') as [k'|] eqn:F; [|discriminate].
  apply ik_eqb_eq in A. subst. eauto.
Qed.
Print Assumptions C23_from_key_mapped.
(** Every variant of every row can be written, with the first key of the first row that has it. *)
Theorem C23_all_variants : forall tt keys ks k, In (keys, ks) (table tt) -> In k ks ->
  exists pre keys' ks' post s, table tt = pre ++ (keys', ks') :: post /\ (forall r, In r pre -> ~ In k (snd r)) /\ In k ks' /\ hd_error keys' = Some s /\ map_key tt k = Some s.
Proof.
  intros tt keys ks k I K. unfold map_key, get_key.
  assert (NE : forall r, In r (table tt) -> fst r <> []).
  { assert (A : forallb (fun r : row => match fst r with [] => false | _ => true end) (table tt) = true) by (destruct tt; vm_compute; reflexivity).
    rewrite forallb_forall in A. intros r R. specialize (A r R). destruct (fst r); congruence. }
  assert (KB : forall l, existsb (ik_eqb k) l = true <-> In k l).
  { intro l. rewrite existsb_exists. split. intros (x & X & E). apply ik_eqb_eq in E. congruence. intro X. exists k. split; auto. now apply ik_eqb_eq. }
  revert I NE. generalize (table tt). induction l as [|r l IH]; intros I NE; [contradiction|].
  cbn [find]. destruct (existsb (ik_eqb k) (snd r)) eqn:E.
  - destruct r as [[|s ss] ks']. destruct (NE _ (or_introl eq_refl)); reflexivity.
    exists [], (s :: ss), ks', l, s. repeat split; auto. now apply KB.
  - destruct I as [I|I]. { subst r. cbn [snd] in E. apply KB in K. congruence. }
    destruct IH as (pre & keys' & ks' & post & s & -> & P & Q & Hh & F); auto. intros x X. apply NE. now right.
    exists (r :: pre), keys', ks', post, s. repeat split; auto. intros x [<-|X]; auto. intro X. apply KB in X. congruence.
Qed.
Print Assumptions C23_all_variants.
(** Finding: item.rs says that for a format key with several meanings "the most applicable variant must appear first", but
    a later row with the same key replaces an earlier one. *)
Theorem C23_first_variant_refuted : ~ (forall tt keys variants k s, In (keys, k :: variants) (table tt) -> In s keys ->
  (forall r, In r (table tt) -> In s (fst r) -> exists pre post, table tt = pre ++ (keys, k :: variants) :: post /\ ~ In r pre) ->
  from_key tt s = Some k).
Proof.
  intro H. specialize (H Ape [$"Track"] [] KTrackNumber ($"Track")).
  assert (X : from_key Ape ($"Track") = Some KTrackNumber).
  { apply H.
    - unfold table, ape_map. repeat ((left; reflexivity) || right).
    - left. reflexivity.
    - intros r I J.
      assert (D : existsb (fun r => existsb (list_eqb ($"Track")) (fst r)) (firstn 33 ape_map) = false) by (vm_compute; reflexivity).
      exists (firstn 33 ape_map), (skipn 34 ape_map). split. vm_compute. reflexivity.
      intro F. rewrite <- not_true_iff_false in D. apply D. apply existsb_exists. exists r. split; auto. apply existsb_exists. exists ($"Track"). split; auto. }
  vm_compute in X. discriminate.
Qed.
Print Assumptions C23_first_variant_refuted.
Example C23_ex : map_key Id3v2 KAlbumArtist = Some ($"TPE2") /\ from_key Id3v2 ($"album artist") = Some KAlbumArtist /\ from_key Ape ($"Track") = Some KTrackTotal.
Proof. vm_compute. auto. Qed.
