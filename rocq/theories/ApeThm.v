(** Property theorems for APE tags (C28-C31, C67-C74). *)
From Coq Require Import Permutation.
From Verif Require Import BaseLemmas StrLemmas TextProof PictureProof PictureThm ItemKeyThm TagThm Id3v2HeaderThm ApeModel ApeProof ApeProof2.
From Verif Require Import TagModel.

(** ** C28: what is dumped is read back, from either end, wherever the tag is in the stream. Conditions: the items pass
    [ApeItem::new], keys are distinct ignoring case, texts do not end with a NUL. Without cover art the picture items are missing. *)
Theorem C28_roundtrip : forall t b pre post,
  Forall item_ok (at_items t) -> NoDup (map (fun i => lower (ai_key i)) (at_items t)) -> at_items t <> [] -> ape_dump t = Ok b ->
  let data := pre ++ b ++ post in
  exists ro size,
  read_ape_tag data false true true (lenN pre, b ++ post) = Ok (Some (mkApeTag ro (at_items t)), Some size, (lenN (pre ++ b), post)) /\
  read_ape_tag data true true true (rd_at data (lenN (pre ++ b) - 32)) = Ok (Some (mkApeTag ro (at_items t)), Some size, (lenN (pre ++ b), post)).
Proof.
  intros t b pre post F ND Ne D data. destruct (read_back t b pre post true F ND Ne D) as [A B]. cbv zeta in A, B.
  replace (filter (shown true) (at_items t)) with (at_items t) in A, B.
  2:{ symmetry. clear. induction (at_items t); auto. cbn [filter]. rewrite shown_all. now f_equal. }
  exists false, (N.min U32_MAX (lenN b), lenN (at_items t)). fold data in A, B.
  assert (E1 : rd_at data (lenN pre) = (lenN pre, b ++ post)) by (unfold rd_at, data; f_equal; now apply dropN_app).
  assert (E2 : rd_at data (lenN (pre ++ b)) = (lenN (pre ++ b), post)) by (unfold rd_at, data; f_equal; rewrite app_assoc; now apply dropN_app).
  rewrite E1, E2 in A. rewrite E2 in B. auto.
Qed.
Print Assumptions C28_roundtrip.
(** Dumping only fails for size. *)
Theorem C28_dump_total : forall t, match ape_dump t with
  | Ok b => b = [] <-> at_items t = []
  | Err e => e = ATooMuch /\ U32_MAX < lenN (flat_map item_bytes (at_items t)) + 32
  | Panic => U32_MAX < lenN (at_items t)
  end.
Proof.
  intros. unfold ape_dump, create_ape_tag. destruct (at_items t) as [|i l] eqn:E. tauto. cbv zeta. rewrite <- E.
  destruct (N.ltb_spec U32_MAX (lenN (at_items t))); auto. destruct (N.ltb_spec U32_MAX (lenN (flat_map item_bytes (at_items t)) + 32)); auto.
  rewrite E. split; intro X; [|discriminate]. apply (f_equal lenN) in X. rewrite lenN_app, frame_len in X. change (lenN (@nil N)) with 0 in X. lia.
Qed.
Print Assumptions C28_dump_total.
Definition ape_sample : ape_tag := mkApeTag true [mkApe false ($"Title") (VText ($"Foo")); mkApe true ($"Artist") (VText [65; 0; 233]);
  mkApe false ($"Related") (VLocator ($"http://x")); mkApe false ($"Cover Art (Front)") (VBinary [1; 0; 255])].
Example C28_ex : exists b, ape_dump ape_sample = Ok b /\ lenN b = 153 /\
  read_ape_tag ([9; 9] ++ b) true true true (rd_at ([9; 9] ++ b) 123) = Ok (Some (mkApeTag false (at_items ape_sample)), Some (153, 4), (155, [])) /\
  read_ape_tag ([9; 9] ++ b) true false true (rd_at ([9; 9] ++ b) 123) = Ok (Some (mkApeTag false (firstn 3 (at_items ape_sample))), Some (153, 4), (155, [])).
Proof. eexists. split. vm_compute. reflexivity. vm_compute. auto. Qed.

(** ** C29 *)
Inductive ape_op := OInsert (i : ape_item) | OPush (i : ape_item) | ORemove (k : str) | OSetNumber (k : str) (n : N) | OSetTotal (k : str) (n : N)
  | ORemoveTotal (k : str) | OItem (i : tag_item) | OPicture (p : picture).
Definition ape_step (t : ape_tag) (o : ape_op) : ape_tag :=
  match o with
  | OInsert i => ape_insert i t | OPush i => ape_push i t | ORemove k => ape_remove k t | OSetNumber k n => set_pair_number k n t
  | OSetTotal k n => set_pair_total k n t | ORemoveTotal k => remove_pair_total k t | OItem i => ape_insert_item t i | OPicture p => ape_insert_picture t p
  end.
Definition unique_keys (t : ape_tag) : Prop := forall a i b j c, at_items t = a ++ i :: b ++ j :: c -> eq_ignore_case (ai_key i) (ai_key j) = false.
Lemma unique_of_nodup : forall t, NoDup (fold_keys (at_items t)) -> unique_keys t.
Proof.
  intros t ND a i b j c E. rewrite E in ND. rewrite fold_keys_app in ND. cbn in ND. apply NoDup_remove in ND as [_ ND].
  destruct (eq_ignore_case (ai_key i) (ai_key j)) eqn:X; auto. apply eq_ignore_case_iff in X. destruct ND. apply in_or_app. right. rewrite map_app. apply in_or_app. right. left. auto.
Qed.
Theorem C29_unique : forall ops, unique_keys (fold_left ape_step ops ape_default).
Proof.
  intro ops. apply unique_of_nodup. apply fold_nodup. 2: constructor.
  intros o t H. destruct o; cbn [ape_step]. now apply insert_nodup. now apply push_nodup. now apply remove_nodup.
  now apply pair_nodup. now apply pair_nodup. now apply remove_total_nodup. now apply insert_item_nodup. now apply insert_picture_nodup.
Qed.
Print Assumptions C29_unique.
Theorem C29_read_unique : forall data footer cover tags r t h r', read_ape_tag data footer cover tags r = Ok (Some t, h, r') ->
  unique_keys t /\ forall ops, unique_keys (fold_left ape_step ops t).
Proof.
  intros data footer cover tags r t h r' H.
  assert (ND : NoDup (fold_keys (at_items t))).
  { unfold read_ape_tag in H. destruct (rd_exact 8 r) as [[p r1]| |]; try discriminate. cbn [bind] in H. destruct (list_eqb p PREAMBLE); [|discriminate].
    destruct (read_ape_header data footer r1) as [[[size count] r2]| |]; try discriminate. cbn [bind] in H. destruct tags; [|discriminate].
    unfold read_with_header in H. destruct (read_items _ _ _ _ _ _) as [[t' r3]| |] eqn:E; try discriminate. cbn [bind] in H. inv H.
    eapply read_items_nodup; [|eauto]. constructor. }
  split. now apply unique_of_nodup. intro ops. apply unique_of_nodup. apply fold_nodup; auto.
  intros o t0 X. destruct o; cbn [ape_step]. now apply insert_nodup. now apply push_nodup. now apply remove_nodup.
  now apply pair_nodup. now apply pair_nodup. now apply remove_total_nodup. now apply insert_item_nodup. now apply insert_picture_nodup.
Qed.
Print Assumptions C29_read_unique.
Theorem C29_get : forall t i k,
  ape_get (ape_insert i t) k = (if eq_ignore_case (ai_key i) k then Some i else ape_get t k) /\
  ape_get (ape_remove (ai_key i) t) k = (if eq_ignore_case (ai_key i) k then None else ape_get t k).
Proof.
  intros. destruct (eq_ignore_case (ai_key i) k) eqn:E.
  - apply eq_ignore_case_iff in E. split. now apply get_insert_same. apply get_none. intro X. apply remove_keys in X. destruct X as [_ X]. congruence.
  - assert (lower (ai_key i) <> lower k) by (intro X; apply eq_ignore_case_iff in X; congruence). split. now apply get_insert_other. apply get_remove_other. congruence.
Qed.
Print Assumptions C29_get.
Example C29_ex : map ai_key (at_items (fold_left ape_step [OInsert (ape_text ($"title") ($"a")); OPush (ape_text ($"Artist") ($"b")); OInsert (ape_text ($"TITLE") ($"c")); OPush (ape_text ($"ARTIST") ($"d"))] ape_default))
  = [$"Artist"; $"TITLE"].
Proof. vm_compute. reflexivity. Qed.

(** ** C30 *)
Lemma push_onto : forall l a b, key_is (ai_key b) a = true -> ~ In (lower (ai_key b)) (fold_keys l) -> forall l2, push_into b (l ++ a :: l2) = l ++ ape_combine a b :: l2.
Proof.
  induction l as [|i l IH]; intros; cbn [push_into app]. now rewrite H.
  destruct (key_is (ai_key b) i) eqn:E. { apply key_is_iff in E. destruct H0. left. auto. }
  f_equal. apply IH; auto. intro. apply H0. now right.
Qed.
Lemma pushes : forall key vs v t, ~ In (lower key) (fold_keys (at_items t)) ->
  fold_left (fun t s => ape_push (ape_text key s) t) (v :: vs) t = mkApeTag (at_ro t) (at_items t ++ [ape_text key (joined 0 (v :: vs))]).
Proof.
  intros key vs. induction vs as [|w vs IH] using rev_ind; intros v t NI.
  - cbn. unfold ape_push. f_equal. now apply push_new.
  - change (v :: vs ++ [w]) with ((v :: vs) ++ [w]). rewrite fold_left_app, IH by auto. cbn [fold_left]. rewrite joined_snoc by congruence.
    unfold ape_push. cbn [at_ro at_items]. f_equal. rewrite push_onto; auto. apply eq_ignore_case_refl.
Qed.
Theorem C30_text_values : forall t key vs, vs <> [] -> Forall (fun s => ~ In 0 s) vs -> ape_get t key = None ->
  let t' := fold_left (fun t s => ape_push (ape_text key s) t) vs t in
  (exists i, ape_get t' key = Some i /\ ai_key i = key /\ text_values i = Some vs) /\
  (forall k, eq_ignore_case key k = false -> ape_get t' k = ape_get t k).
Proof.
  intros t key vs N F G. apply get_none in G. destruct vs as [|v vs]; [congruence|]. cbv zeta. rewrite pushes by auto. split.
  - exists (ape_text key (joined 0 (v :: vs))). split.
    + unfold ape_get. cbn [at_items]. rewrite find_app'. apply get_none in G. unfold ape_get in G. rewrite G. cbn [find]. unfold key_is. cbn [ai_key ape_text]. now rewrite eq_ignore_case_refl.
    + split; auto. unfold text_values. cbn [ape_text ai_value]. now rewrite split_joined.
  - intros k K. unfold ape_get. cbn [at_items]. rewrite find_app'. destruct (find (key_is k) (at_items t)); auto. cbn [find]. unfold key_is. cbn [ai_key ape_text]. now rewrite K.
Qed.
Print Assumptions C30_text_values.
Example C30_ex : let t := fold_left (fun t s => ape_push (ape_text ($"Artist") s) t) [$"A"; []; $"B"] ape_default in
  option_map text_values (ape_get t ($"ARTIST")) = Some (Some [$"A"; []; $"B"]).
Proof. vm_compute. reflexivity. Qed.

(** ** C31: for the track and disc keys (and any other), from every tag. *)
Lemma split_pair_num : forall n key t, n <= U32_MAX -> split_num_pair (ape_insert (ape_text key (to_dec n)) t) key = (Some n, None).
Proof.
  intros. unfold split_num_pair. rewrite get_insert_same by reflexivity. cbn [ape_text ai_value]. rewrite split_all_no by now apply to_dec_no.
  cbn [TagModel.filter_map]. rewrite parse_uint_to_dec by auto. reflexivity.
Qed.
Lemma split_pair_both : forall n m key t, n <= U32_MAX -> m <= U32_MAX -> split_num_pair (ape_insert (ape_text key (to_dec n ++ [47] ++ to_dec m)) t) key = (Some n, Some m).
Proof.
  intros. unfold split_num_pair. rewrite get_insert_same by reflexivity. cbn [ape_text ai_value]. change (to_dec n ++ [47] ++ to_dec m) with (to_dec n ++ 47 :: to_dec m).
  rewrite split_all_app by now apply to_dec_no. rewrite split_all_no by now apply to_dec_no.
  cbn [TagModel.filter_map]. rewrite !parse_uint_to_dec by auto. reflexivity.
Qed.
Lemma in_filter_map : forall A B (f : A -> option B) l y, In y (TagModel.filter_map f l) -> exists x, In x l /\ f x = Some y.
Proof.
  induction l as [|a l IH]; intros; [contradiction|]. cbn [TagModel.filter_map] in H. destruct (f a) eqn:E.
  - destruct H. exists a. subst. split; auto. now left. destruct (IH _ H) as (x & X & Y). exists x. split; auto. now right.
  - destruct (IH _ H) as (x & X & Y). exists x. split; auto. now right.
Qed.
Lemma pair_bound : forall t key, (forall n, pair_number key t = Some n -> n <= U32_MAX) /\ (forall n, pair_total key t = Some n -> n <= U32_MAX).
Proof.
  intros. unfold pair_number, pair_total, split_num_pair. destruct (ape_get t key); [|split; discriminate]. destruct (ai_value a); try (split; discriminate).
  cbv zeta. cbn [fst snd]. split; intros n H; apply nth_error_In, in_filter_map in H as (x & _ & X); now apply parse_uint_bound in X.
Qed.
Lemma total_needs_number : forall t key, pair_number key t = None -> pair_total key t = None.
Proof.
  intros. unfold pair_number, pair_total, split_num_pair in *. destruct (ape_get t key); auto. destruct (ai_value a); auto. cbv zeta in *. cbn [fst snd] in *.
  destruct (TagModel.filter_map _ _); auto. discriminate.
Qed.
Theorem C31_number_pairs : forall t key n, n <= U32_MAX ->
  (pair_number key (set_pair_number key n t) = Some n /\ pair_total key (set_pair_number key n t) = pair_total key t) /\
  (pair_total key (set_pair_total key n t) = Some n /\
   pair_number key (set_pair_total key n t) = match pair_number key t with Some m => Some m | None => Some 0 end) /\
  (pair_total key (remove_pair_total key t) = None /\ pair_number key (remove_pair_total key t) = pair_number key t) /\
  (forall k, eq_ignore_case key k = false -> ape_get (set_pair_number key n t) k = ape_get t k /\
     ape_get (set_pair_total key n t) k = ape_get t k /\ ape_get (remove_pair_total key t) k = ape_get t k).
Proof.
  intros t key n Hn. destruct (pair_bound t key) as [B1 B2].
  assert (O : forall k, eq_ignore_case key k = false -> lower key <> lower k) by (intros k K E; apply eq_ignore_case_iff in E; congruence).
  repeat split.
  - unfold set_pair_number, insert_number_pair, pair_number. destruct (pair_total key t) eqn:E; cbn [option_map format_number_pair].
    rewrite split_pair_both; auto. rewrite split_pair_num; auto.
  - unfold set_pair_number, insert_number_pair. destruct (pair_total key t) eqn:E; cbn [option_map format_number_pair]; unfold pair_total.
    rewrite split_pair_both; auto. rewrite split_pair_num; auto.
  - unfold set_pair_total, insert_number_pair. destruct (pair_number key t) eqn:E; cbn [option_map format_number_pair]; unfold pair_total.
    rewrite split_pair_both; auto. change ($"0/" ++ to_dec n) with (to_dec 0 ++ [47] ++ to_dec n). rewrite split_pair_both; auto. discriminate.
  - unfold set_pair_total, insert_number_pair. destruct (pair_number key t) eqn:E; cbn [option_map format_number_pair]; unfold pair_number.
    rewrite split_pair_both; auto. change ($"0/" ++ to_dec n) with (to_dec 0 ++ [47] ++ to_dec n). rewrite split_pair_both; auto. discriminate.
  - unfold remove_pair_total. cbv zeta. destruct (pair_number key t) eqn:E; unfold pair_total. rewrite split_pair_num; auto. unfold split_num_pair. now rewrite get_remove_same.
  - unfold remove_pair_total. cbv zeta. destruct (pair_number key t) eqn:E. unfold pair_number. rewrite split_pair_num; auto. unfold pair_number, split_num_pair. now rewrite get_remove_same.
  - unfold set_pair_number, insert_number_pair. destruct (format_number_pair _ _); auto. apply get_insert_other. cbn [ape_text ai_key]. auto.
  - unfold set_pair_total, insert_number_pair. destruct (format_number_pair _ _); auto. apply get_insert_other. cbn [ape_text ai_key]. auto.
  - unfold remove_pair_total. cbv zeta. assert (lower k <> lower key) by (intro X; apply (O k H); auto). destruct (pair_number key t).
    rewrite get_insert_other by (cbn [ape_text ai_key]; auto). now apply get_remove_other. now apply get_remove_other.
Qed.
Print Assumptions C31_number_pairs.
Example C31_ex : let t := set_pair_total TRACK 12 (set_pair_number TRACK 3 ape_default) in
  ape_get_text TRACK t = Some ($"3/12") /\ pair_number TRACK t = Some 3 /\ pair_total TRACK (remove_pair_total TRACK t) = None /\
  pair_number TRACK (remove_pair_total TRACK t) = Some 3 /\ ape_get_text DISC (set_pair_total DISC 2 t) = Some ($"0/2").
Proof. vm_compute. auto. Qed.

(** ** C67: the read-only flag of the tag is written (header and footer flags) but never read. *)
Theorem C67_read_only_refuted : ~ (forall t b, Forall item_ok (at_items t) -> NoDup (map (fun i => lower (ai_key i)) (at_items t)) -> at_items t <> [] ->
  ape_dump t = Ok b -> exists h r, read_ape_tag b false true true (rd_at b 0) = Ok (Some t, h, r)).
Proof.
  intro H. pose (t := mkApeTag true [mkApe false ($"Title") (VText ($"Foo"))]).
  destruct (H t _ ltac:(constructor; [|constructor]; split; [eexists; vm_compute; reflexivity|split; [repeat constructor|cbn; lia]])
              ltac:(constructor; [intros []|constructor]) ltac:(discriminate) eq_refl) as (h & r & E).
  vm_compute in E. discriminate.
Qed.
Print Assumptions C67_read_only_refuted.
(** Whatever is read is never read-only as a whole. *)
Lemma read_items_ro : forall fuel count remaining cover t r t' r', read_items fuel count remaining cover t r = Ok (t', r') -> at_ro t' = at_ro t.
Proof.
  induction fuel; intros; cbn [read_items] in *; [discriminate|].
  destruct (count =? 0). { inv H. auto. } destruct (remaining <? 11). { inv H. auto. }
  destruct (rd_le4 r) as [[size r1]| |]; try discriminate. cbn [bind] in H. destruct (remaining <? size); [discriminate|].
  destruct (rd_le4 r1) as [[flags r2]| |]; try discriminate. cbn [bind] in H.
  destruct (rd_key r2) as [[kb r3]| |]; try discriminate. cbn [bind] in H.
  destruct (dec_text kb) as [key| |]; try discriminate. cbn [bind] in H.
  destruct (existsb (list_eqb key) APE_PICTURE_TYPES && negb cover). { now apply IHfuel in H. }
  destruct (parse_item key flags size r3) as [[i r4]| |]; try discriminate. cbn [bind] in H. now apply IHfuel in H.
Qed.
Theorem C67_never_read_only : forall data footer cover tags r t h r', read_ape_tag data footer cover tags r = Ok (Some t, h, r') -> at_ro t = false.
Proof.
  intros. unfold read_ape_tag in H. destruct (rd_exact 8 r) as [[p r1]| |]; try discriminate. cbn [bind] in H. destruct (list_eqb p PREAMBLE); [|discriminate].
  destruct (read_ape_header data footer r1) as [[[size count] r2]| |]; try discriminate. cbn [bind] in H. destruct tags; [|discriminate].
  unfold read_with_header in H. destruct (read_items _ _ _ _ _ _) as [[t' r3]| |] eqn:E; try discriminate. cbn [bind] in H. inv H.
  now apply read_items_ro in E.
Qed.
Print Assumptions C67_never_read_only.
