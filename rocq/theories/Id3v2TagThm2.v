(** Theorems about the conversion between ID3v2 tags and Tags: C158 - C162. *)
From Coq Require Import Permutation.
From Verif Require Import BaseLemmas FrameProof2 ItemKeyThm Id3v2TagProof2 Id3v2TagProof4 Id3v2TagProof5.
From Verif Require Import Id3v2TagSpec.

Definition id_order (l : frames) : frames := l.
Lemma id_order_perm : forall l, Permutation (id_order l) l.
Proof. reflexivity. Qed.

(** ** C158: an ID3v2 tag, converted to a Tag and back *)
Theorem C158_frames : forall order custom t, (forall l, Permutation (order l) l) ->
  Forall (converts custom) (t_frames t) -> NoDup (map identity_of (t_frames t)) -> one_people (t_frames t) ->
  let t' := of_tag order custom true (to_tag custom true t) in
  Permutation (t_frames t') (t_frames t) /\ (Exists (is_kept custom) (t_frames t) -> same_head t t').
Proof. intros order custom t Or F N O. exact (round_trip custom order t Or F N O). Qed.
(** The same frames are written when the Tag is saved without converting it first. *)
Theorem C158_saved : forall order custom t, (forall l, Permutation (order l) l) ->
  Forall (converts custom) (t_frames t) -> NoDup (map identity_of (t_frames t)) -> one_people (t_frames t) ->
  Forall (fun f => forall h s, f = FUrl h s -> is_kept custom f) (t_frames t) ->
  Permutation (tag_frames order custom (to_tag custom true t)) (t_frames t).
Proof.
  intros order custom t Or F N O U. apply by_ref; auto. eapply Forall_impl; [|exact U]. cbv beta. intros f H C. destruct f; auto. specialize (H _ _ eq_refl).
  destruct (canonical_split custom _ C) as (i & S). rewrite (kept_split custom _ H) in S. discriminate S.
Qed.
(** Without frames that are kept aside the version and the flags are forgotten. *)
Theorem C158_head_refuted : forall order custom preserve t, Forall (canonical custom) (t_frames t) ->
  let t' := of_tag order custom preserve (to_tag custom preserve t) in t_version t' = V4 /\ t_flags t' = mkTFlags false false false false None.
Proof.
  intros order custom preserve t K. destruct (split_canonical custom _ K) as (E1 & _ & _). unfold of_tag, to_tag, split_tag. rewrite E1. cbn [t_companion]. unfold with_frames. cbn [t_frames empty negb].
  rewrite andb_false_r. replace (if preserve then None else None) with (@None companion) by now destruct preserve. split; reflexivity.
Qed.
(** A track number that is not one, like those of a record's sides, is dropped. *)
Theorem C158_number_refuted : forall order custom preserve h e id, (forall l, Permutation (order l) l) -> In id [$"TRCK"; $"TPOS"; $"MVIN"] -> fh_id h = Valid id ->
  let t := mkT V4 NO_FLAGS [FText h e ($"A1")] in
  t_frames (of_tag order custom preserve (to_tag custom preserve t)) = [].
Proof.
  intros order custom preserve [i fl] e id Or H E t. cbn [fh_id] in E. subst i.
  assert (O : order [] = []) by (apply Permutation_nil; symmetry; apply Or).
  assert (M : of_tag order custom preserve (to_tag custom preserve t) = merge_tag order custom id3v2_default (to_tag custom preserve t)).
  { unfold t, of_tag, to_tag, split_tag. destruct preserve; destruct H as [<- |[<- |[<- |[]]]]; reflexivity. }
  rewrite M. unfold merge_tag, t, to_tag, split_tag. destruct H as [<- |[<- |[<- |[]]]]; cbn -[from_tag]; unfold with_frames; cbn [t_frames];
  match goal with |- context [from_tag custom true ?l] => change (from_tag custom true l) with (@nil frame) end; rewrite O; reflexivity.
Qed.
(** The second value of a comment loses the description of the comment. *)
Theorem C158_description_refuted : forall custom lang d a b, d <> [] -> ~ In 0 a -> ~ In 0 b ->
  t_frames (of_tag id_order custom true (to_tag custom true (mkT V4 NO_FLAGS [comment_frame lang d (a ++ [0] ++ b)])))
  = [comment_frame lang d a; comment_frame lang [] b].
Proof.
  intros custom lang d a b D A B.
  assert (S : to_tag custom true (mkT V4 NO_FLAGS [comment_frame lang d (a ++ [0] ++ b)]) = mkTag Id3v2 [] [mkItem lang d KComment (VText a); mkItem lang [] KComment (VText b)] None).
  { unfold to_tag, split_tag. cbn [t_frames map split_frame comment_frame]. unfold values. change (a ++ [0] ++ b) with (ApeProof.joined 0 [a; b]). rewrite (ApeProof.split_joined 0 [a; b]). reflexivity. discriminate. repeat constructor; auto. }
  assert (F : from_tag custom true [mkItem lang d KComment (VText a); mkItem lang [] KComment (VText b)] = [comment_frame lang d a; comment_frame lang [] b]).
  { unfold from_tag. cbn [items_to_frames].
    rewrite (step_comm custom true ctx0 _ a) by reflexivity. rewrite (step_comm custom true _ _ b) by reflexivity. cbn [it_lang it_desc ctx0 set_comm c_comm map_extend].
    assert (E : lang_desc_eqb (lang, []) (lang, d) = false) by (unfold lang_desc_eqb; cbn [fst snd]; rewrite list_eqb_refl; destruct d; [congruence|reflexivity]).
    rewrite E. cbn [app]. match goal with |- context [ctx_frames ?c] => change (ctx_frames c) with [comment_frame lang d a; comment_frame lang [] b] end.
    unfold set_of. cbn [fold_left existsb app].
    replace (frame_eqb (comment_frame lang d a) (comment_frame lang [] b)) with false. reflexivity.
    symmetry. cbn [frame_eqb comment_frame]. rewrite list_eqb_refl. destruct d; [congruence|reflexivity]. }
  rewrite S. unfold of_tag, merge_tag. cbn [t_companion t_items t_pictures]. rewrite F. reflexivity.
Qed.
(** Encodings and frame flags are forgotten. *)
Theorem C158_encoding_refuted : forall custom fl e, t_frames (of_tag id_order custom true (to_tag custom true (mkT V4 NO_FLAGS [FText (mkFH (Valid ($"TIT2")) fl) e ($"a")])))
  = [text_frame ($"TIT2") ($"a")].
Proof. intros. reflexivity. Qed.
Example C158_example :
  let t := mkT V3 NO_FLAGS [text_frame ($"TIT2") ($"a" ++ [0] ++ $"b"); text_frame ($"TRCK") ($"3/10"); tipl_frame [($"producer", $"X"); ($"mix", $"Y")];
                           FPriv (new_header ($"PRIV")) ($"o") [1]; comment_frame ($"eng") ($"d") ($"c"); url_frame ($"WOAR") ($"u"); picture_frame (mkPic POther None None [1])] in
  let t' := of_tag (@rev frame) DefaultProvider true (to_tag DefaultProvider true t) in
  t_version t' = V3 /\ length (t_frames t') = 7%nat /\ In (text_frame ($"TIT2") ($"a" ++ [0] ++ $"b")) (t_frames t') /\
  In (text_frame ($"TRCK") ($"3/10")) (t_frames t') /\ In (tipl_frame [($"producer", $"X"); ($"mix", $"Y")]) (t_frames t').
Proof. vm_compute. repeat split; tauto. Qed.

(** ** C159: the items of a Tag, converted to an ID3v2 tag and back *)
Theorem C159_items : forall order custom preserve preserve' gs fs, (forall l, Permutation (order l) l) ->
  Forall2 (carries custom) gs fs -> NoDup (map identity_of fs) -> one_people fs ->
  let t := of_tag order custom preserve (mkTag Id3v2 [] (concat gs) None) in
  Permutation (t_frames t) fs /\ exists gs', Permutation gs' gs /\ to_tag custom preserve' t = mkTag Id3v2 [] (concat gs') None.
Proof. intros order custom preserve preserve' gs fs Or K N O. exact (items_round_trip custom order preserve preserve' gs fs Or K N O). Qed.
(** Items with these keys are dropped, whatever else the tag has. *)
Theorem C159_lost_refuted : forall custom owned k lang d v a b, In k LOST ->
  supports Id3v2 k = true /\ from_tag custom owned (a ++ mkItem lang d k v :: b) = from_tag custom owned (a ++ b).
Proof.
  intros custom owned k lang d v a b H. split. cbn [In LOST] in H. repeat destruct H as [<- | H]; try contradiction; reflexivity.
  apply no_effect. intros c. now apply lost_none.
Qed.
(** These keys come back as others. *)
Theorem C159_shared_refuted : forall custom k k' s, In (k, k') SHARED -> ~ In 0 s ->
  t_items (to_tag custom true (of_tag id_order custom true (mkTag Id3v2 [] [txt k s] None))) = [txt k' s] /\ k <> k'.
Proof.
  intros custom k k' s H Z.
  assert (V : values s = [s]) by (now apply Id3v2TagProof3.value_one).
  cbn [In SHARED] in H. repeat destruct H as [H | H]; try contradiction; injection H as <- <-; (split; [|discriminate]).
  - replace (of_tag id_order custom true (mkTag Id3v2 [] [txt KWriter s] None)) with (mkT V4 NO_FLAGS [text_frame ($"TEXT") s]) by reflexivity.
    unfold to_tag, split_tag. cbn [t_frames map split_frame text_frame]. rewrite V. reflexivity.
  - replace (of_tag id_order custom true (mkTag Id3v2 [] [txt KLabel s] None)) with (mkT V4 NO_FLAGS [text_frame ($"TPUB") s]) by reflexivity.
    unfold to_tag, split_tag. cbn [t_frames map split_frame text_frame]. rewrite V. reflexivity.
  - replace (of_tag id_order custom true (mkTag Id3v2 [] [txt KEncoderSoftware s] None)) with (mkT V4 NO_FLAGS [text_frame ($"TSSE") s]) by reflexivity.
    unfold to_tag, split_tag. cbn [t_frames map split_frame text_frame]. rewrite V. reflexivity.
Qed.
(** A total without a number gets the number 0. *)
Theorem C159_total_refuted : forall custom k k' id m, In (k, k', id) PAIR_OF -> m <= U32_MAX ->
  t_items (to_tag custom true (of_tag id_order custom true (mkTag Id3v2 [] [txt k' (to_dec m)] None))) = [txt k ($"0"); txt k' (to_dec m)].
Proof.
  intros custom k k' id m H M.
  assert (E : from_tag custom true [txt k' (to_dec m)] = [text_frame id (to_dec 0 ++ $"/" ++ to_dec m)]).
  { unfold from_tag. cbn [items_to_frames]. cbn [In PAIR_OF] in H. destruct H as [H|[H|[]]]; injection H as <- <- <-.
    - rewrite Id3v2TagProof3.step_track_total, StrLemmas.parse_uint_to_dec by auto. reflexivity.
    - rewrite Id3v2TagProof3.step_disc_total, StrLemmas.parse_uint_to_dec by auto. reflexivity. }
  assert (T : of_tag id_order custom true (mkTag Id3v2 [] [txt k' (to_dec m)] None) = mkT V4 NO_FLAGS [text_frame id (to_dec 0 ++ $"/" ++ to_dec m)]).
  { unfold of_tag, merge_tag, id_order. cbn [t_companion t_items t_pictures]. rewrite E. cbn [In PAIR_OF] in H. destruct H as [H|[H|[]]]; injection H as <- <- <-; reflexivity. }
  assert (Z : 0 <= U32_MAX) by (unfold U32_MAX; lia).
  destruct (carries_spec custom _ _ (car_pair custom k k' id 0 m H Z M)) as [Cn I].
  destruct (split_canonical custom [text_frame id (to_dec 0 ++ $"/" ++ to_dec m)]) as (_ & _ & S3); [now constructor|].
  rewrite T. unfold to_tag, split_tag. cbn [t_items t_frames]. rewrite S3. cbn [flat_map]. rewrite I. reflexivity.
Qed.
(** Of several values of a key with one value, the later ones are dropped; of ReplayGain values the earlier ones. *)
Theorem C159_later_refuted : forall custom owned k id a b, In (k, id) SINGLE_OF -> from_tag custom owned [txt k a; txt k b] = [text_frame id a].
Proof. intros custom owned k id a b H. cbn [In SINGLE_OF] in H. repeat destruct H as [H | H]; try contradiction; injection H as <- <-; destruct owned; reflexivity. Qed.
Theorem C159_gain_refuted : forall custom owned k id a b, In (k, id) GAIN_OF -> from_tag custom owned [txt k a; txt k b] = [user_text_frame id b].
Proof. intros custom owned k id a b H. cbn [In GAIN_OF] in H. repeat destruct H as [H | H]; try contradiction; injection H as <- <-; destruct owned; reflexivity. Qed.
Example C159_example :
  from_tag DefaultProvider true [txt KTrackArtist ($"a"); txt KTrackNumber ($"3"); txt KTrackArtist ($"b"); txt KProducer ($"P"); txt KTrackTotal ($"9"); txt KMixEngineer ($"M")]
  = [tipl_frame [($"producer", $"P"); ($"mix", $"M")]; text_frame ($"TPE1") ($"a" ++ [0] ++ $"b"); text_frame ($"TRCK") ($"3/9")] /\
  carries DefaultProvider [txt KTrackArtist ($"a"); txt KTrackArtist ($"b")] (text_frame ($"TPE1") ($"a" ++ [0] ++ $"b")).
Proof. split. reflexivity. apply (car_text _ KTrackArtist ($"TPE1") [$"a"; $"b"]). cbn; tauto. discriminate. repeat constructor; unfold no_nul; cbn; intros [H|[]]; discriminate H. Qed.

(** ** C160: the keys a Tag for ID3v2 accepts are those that can be stored *)
Definition witness (k : item_key) : str := match k with KPopularimeter => $"users@musicbrainz.org|3|1" | _ => $"1" end.
Theorem C160_exact : forall custom k, (exists s, from_tag custom true [txt k s] <> []) <-> ((supports Id3v2 k = true /\ ~ In k LOST) \/ In k HIDDEN).
Proof.
  intros custom k. split.
  - intros (s & H). destruct (existsb (ik_eqb k) HIDDEN) eqn:Hd.
    { right. apply existsb_exists in Hd as (x & I & E). apply ik_eqb_eq in E. now subst. }
    left. split.
    + destruct (supports Id3v2 k) eqn:S; auto. exfalso. apply H.
      pose proof (for_keys (fun k => existsb (ik_eqb k) HIDDEN || supports Id3v2 k || match target_of k, tipl_name k, map_key Id3v2 k with ToOther, None, None => true | _, _, _ => false end) eq_refl k) as X.
      cbv beta in X. rewrite Hd, S in X. cbn [orb] in X. destruct (target_of k) eqn:T; try discriminate X. destruct (tipl_name k) eqn:Nm; [discriminate X|]. destruct (map_key Id3v2 k) eqn:M; [discriminate X|].
      unfold from_tag. cbn [items_to_frames]. rewrite (step_other custom true ctx0 _ s) by auto. cbn [it_key txt new_item]. rewrite M. reflexivity.
    + intros L. apply H. unfold from_tag. cbn [items_to_frames]. unfold txt, new_item. rewrite lost_none by auto. reflexivity.
  - intros H. exists (witness k).
    assert (X : supports Id3v2 k = true \/ In k HIDDEN) by tauto. assert (Y : ~ In k LOST) by (destruct H as [[_ H]|H]; auto; intros L; cbn [In LOST HIDDEN] in *; repeat destruct L as [<- |L]; try contradiction; repeat destruct H as [H|H]; try discriminate H; contradiction).
    clear H. destruct k; try (exfalso; apply Y; cbn; tauto); try (exfalso; destruct X as [X|X]; [discriminate X|cbn in X; repeat destruct X as [X|X]; try discriminate X; contradiction]).
    all: cbn [witness]; try (vm_compute; discriminate).
Qed.
(** Keys that can be stored and are refused, and keys that are accepted and cannot be stored. *)
Theorem C160_refused_refuted : forall (g : gtag) k v, In k HIDDEN -> t_type g = Id3v2 -> TagModel.insert (new_item k v) g = (false, g).
Proof. intros g k v H T. unfold TagModel.insert. rewrite T. cbn [In HIDDEN it_key new_item] in *. repeat destruct H as [<- | H]; try contradiction; reflexivity. Qed.
Theorem C160_accepted_refuted : forall custom (g : gtag) k v, In k LOST -> t_type g = Id3v2 ->
  fst (TagModel.insert (new_item k v) g) = true /\
  forall owned, from_tag custom owned (t_items (snd (TagModel.insert (new_item k v) g))) = from_tag custom owned (t_items (TagModel.remove_key k g)).
Proof.
  intros custom g k v H T. unfold TagModel.insert. rewrite T. destruct (C159_lost_refuted custom true k ($"XXX") [] v [] [] H) as [S _]. cbn [it_key new_item]. rewrite S. split; auto.
  intros owned. cbn [snd]. unfold insert_unchecked, remove_key, with_items. cbn [t_items it_key new_item].
  rewrite (no_effect custom owned (new_item k v)). now rewrite app_nil_r. intros c. now apply lost_none.
Qed.
Example C160_example : supports Id3v2 KMovementNumber = true /\ from_tag DefaultProvider true [txt KMovementNumber ($"2")] = [] /\
  supports Id3v2 KProducer = false /\ from_tag DefaultProvider true [txt KProducer ($"P")] = [tipl_frame [($"producer", $"P")]].
Proof. repeat split. Qed.

(** ** C161: saving a Tag writes what converting it gives *)
Theorem C161_same : forall custom l, Forall (fun i => is_locator i = false) l -> from_tag custom false l = from_tag custom true l.
Proof.
  intros custom l F. unfold from_tag. assert (X : forall c, items_to_frames custom false c l = items_to_frames custom true c l).
  { induction l as [|i l IH]; intros c; auto. apply Forall_cons_iff in F as [F1 F2]. cbn [items_to_frames].
    assert (E : item_to_frame custom false c i = item_to_frame custom true c i).
    { assert (S : item_string false i = item_string true i) by (unfold item_string, is_locator in *; destruct (it_value i); try discriminate F1; reflexivity).
      unfold item_to_frame. rewrite S. reflexivity. }
    rewrite E. destruct (item_to_frame custom true c i) as [c1 o]. now rewrite IH. }
  now rewrite X.
Qed.
Theorem C161_tag : forall order custom g, (forall l, Permutation (order l) l) -> Forall (fun i => is_locator i = false) (t_items g) ->
  NoDup (t_pictures g) -> (forall t, t_companion g = Some (CId3v2 t) -> Forall (fun f => kind_of f <> KPicture) (t_frames t)) ->
  one_people (from_tag custom true (t_items g) ++ match t_companion g with Some (CId3v2 t) => t_frames t | _ => [] end) ->
  Permutation (tag_frames order custom g) (t_frames (of_tag order custom true g)).
Proof.
  intros order custom g Or L N Cp O. set (ks := match t_companion g with Some (CId3v2 t) => t_frames t | _ => [] end) in *.
  assert (E : exists t0, of_tag order custom true g = merge_tag order custom t0 g /\ t_frames t0 = ks).
  { unfold of_tag, ks. destruct (t_companion g) as [[t|]|]; eauto. }
  destruct E as (t0 & -> & Ek). unfold merge_tag, with_frames. cbn [t_frames]. rewrite Ek.
  assert (Pk : Forall no_pic ks).
  { unfold ks in *. destruct (t_companion g) as [[t|]|]; auto. eapply Forall_impl; [|apply (Cp t eq_refl)]. cbv beta. intros f H. destruct f; cbn; auto. }
  pose proof (from_tag_no_pic custom true (t_items g)) as Pf.
  rewrite merge_all.
  2: { apply (one_tipl_perm (from_tag custom true (t_items g) ++ ks)); [|exact O]. rewrite Permutation_app_comm. apply Permutation_app_head. symmetry. apply Or. }
  rewrite insert_pictures'; auto.
  2: { intros p _ I. apply in_app_iff in I as [I|I]. rewrite Forall_forall in Pk. apply Pk in I. exact I.
       apply (Permutation_in _ (Or _)) in I. rewrite Forall_forall in Pf. apply Pf in I. exact I. }
  unfold tag_frames. rewrite C161_same by auto. fold ks. rewrite !app_assoc. apply Permutation_app_tail, Permutation_app_comm.
Qed.
(** A Locator is written when the Tag is converted and is dropped when it is saved. *)
Theorem C161_locator_refuted : forall custom k id lang d s a b, In (k, id) URL_OF ->
  from_tag custom true [mkItem lang d k (VLocator s)] = [url_frame id s] /\
  from_tag custom false (a ++ mkItem lang d k (VLocator s) :: b) = from_tag custom false (a ++ b).
Proof.
  intros custom k id lang d s a b H. cbn [In URL_OF] in H. repeat destruct H as [H | H]; try contradiction; injection H as <- <-; (split; [reflexivity|]);
  apply no_effect; intros c; eapply no_string_none; try reflexivity; cbn; intuition discriminate.
Qed.
(** When people are both in the items and in the frames kept aside, saving writes two lists of people. *)
Theorem C161_people_refuted : forall custom r n p, ~ In r ROLES ->
  let g := TagModel.push_unchecked (txt KProducer p) (to_tag custom true (mkT V4 NO_FLAGS [tipl_frame [(r, n)]])) in
  tag_frames id_order custom g = [tipl_frame [($"producer", p)]; tipl_frame [(r, n)]] /\
  t_frames (of_tag id_order custom true g) = [tipl_frame [(r, n); ($"producer", p)]].
Proof.
  intros custom r n p H.
  assert (S : to_tag custom true (mkT V4 NO_FLAGS [tipl_frame [(r, n)]]) = mkTag Id3v2 [] [] (Some (CId3v2 (mkT V4 NO_FLAGS [tipl_frame [(r, n)]])))).
  { unfold to_tag, split_tag. cbn [t_frames map]. rewrite kept_split. reflexivity. right. split. discriminate. repeat constructor. exact H. }
  cbv zeta. rewrite S. split; reflexivity.
Qed.
Example C161_example :
  tag_frames id_order DefaultProvider (mkTag Id3v2 [mkPic POther None None [1]] [txt KTrackTitle ($"t")] (Some (CId3v2 (mkT V3 NO_FLAGS [FPriv (new_header ($"PRIV")) ($"o") [1]]))))
  = [text_frame ($"TIT2") ($"t"); FPriv (new_header ($"PRIV")) ($"o") [1]; picture_frame (mkPic POther None None [1])].
Proof. reflexivity. Qed.

(** ** C162: the frames made from a Tag can be saved *)
Theorem C162_verified : forall custom owned l, Forall (fun i => ~ In (it_key i) UNSAVED) l -> Forall (fun f => verify_frame f = true) (from_tag custom owned l).
Proof. exact from_tag_verified. Qed.
(** With a work in it, or the flag of a podcast, no Tag can be saved to ID3v2. *)
Theorem C162_unsaved_refuted : forall order custom g s i, (forall l, Permutation (order l) l) -> In i (t_items g) -> it_value i = VText s ->
  it_key i = KWork \/ (it_key i = KFlagPodcast /\ In s [$"0"; $"1"; $"true"; $"false"]) ->
  forall w tf tag preserve, create_tag w tf (tag_frames order custom g) <> Ok tag /\ create_tag w tf (t_frames (of_tag order custom preserve g)) <> Ok tag.
Proof.
  intros order custom g s i Or I V K w tf tag preserve. apply in_split in I as (a & b & E).
  assert (X : forall owned, exists f, In f (from_tag custom owned (t_items g)) /\ (f_id f = Valid ($"WORK") \/ f_id f = Valid ($"PCST")) /\ verify_frame f = false).
  { intros owned. rewrite E. destruct K as [K|[K Fl]].
    - destruct (work_made custom owned a i b s K) as (f & I & N & W); [unfold item_string; rewrite V; now destruct owned|]. eauto.
    - destruct (podcast_made custom owned a i b s K V) as (f & I & N & W); [cbn [In] in Fl; repeat destruct Fl as [<- |Fl]; try contradiction; vm_compute; discriminate|]. eauto. }
  assert (Y : forall f, f_id f = Valid ($"WORK") \/ f_id f = Valid ($"PCST") -> is_valid_id (f_id f) = true /\ in_names (f_name f) V4_ONLY = false /\ is_tipl f = false).
  { intros f [N|N]; unfold f_name, is_tipl; rewrite N; repeat split; reflexivity. }
  split.
  - destruct (X false) as (f & I & N & W). destruct (Y f N) as (Y1 & Y2 & _). apply (unwritable w tf _ f); auto.
    unfold tag_frames. apply in_or_app. left. apply (Permutation_in _ (Permutation_sym (Or _))). exact I.
  - destruct (X true) as (f & I & N & W). destruct (Y f N) as (Y1 & Y2 & Y3). apply (unwritable w tf _ f); auto. apply of_tag_keeps; auto.
Qed.
Example C162_example : supports Id3v2 KWork = true /\
  (exists b, create_tag (mkW false false false None) NO_FLAGS (tag_frames id_order DefaultProvider (mkTag Id3v2 [] [txt KTrackTitle ($"t")] None)) = Ok b) /\
  create_tag (mkW false false false None) NO_FLAGS (tag_frames id_order DefaultProvider (mkTag Id3v2 [] [txt KTrackTitle ($"t"); txt KWork ($"w")] None)) = Err EMessage.
Proof. split; [reflexivity|split]. eexists. vm_compute. reflexivity. vm_compute. reflexivity. Qed.

Print Assumptions C158_frames.
Print Assumptions C158_saved.
Print Assumptions C158_head_refuted.
Print Assumptions C158_number_refuted.
Print Assumptions C158_description_refuted.
Print Assumptions C158_encoding_refuted.
Print Assumptions C159_items.
Print Assumptions C159_lost_refuted.
Print Assumptions C159_shared_refuted.
Print Assumptions C159_total_refuted.
Print Assumptions C159_later_refuted.
Print Assumptions C159_gain_refuted.
Print Assumptions C160_exact.
Print Assumptions C160_refused_refuted.
Print Assumptions C160_accepted_refuted.
Print Assumptions C161_same.
Print Assumptions C161_tag.
Print Assumptions C161_locator_refuted.
Print Assumptions C161_people_refuted.
Print Assumptions C162_verified.
Print Assumptions C162_unsaved_refuted.
