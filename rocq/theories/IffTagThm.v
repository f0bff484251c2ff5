(** Theorems about the conversions of RIFF INFO lists and AIFF text chunks. *)
From Coq Require Import Permutation.
From Verif Require Import BaseLemmas StrLemmas TextProof PictureThm TimestampSpec TimestampThm PopmThm ItemKeyThm IffModel IffSpec IffProof IffProof2 IffProof3 IffThm RiffThm AiffModel AiffProof AiffProof2 AiffThm IffTagModel TagThm.

(** ** C212: RIFF INFO lists as generic tags and back *)
(** A value without the null characters at its ends *)
Definition bare (v w : str) : Prop := exists a b, v = repeat 0 a ++ w ++ repeat 0 b /\ hd 1 w <> 0 /\ last w 1 <> 0.
Lemma trim_end_spec : forall s, exists b, s = trim_end_nulls s ++ repeat 0 b /\ last (trim_end_nulls s) 1 <> 0 /\ (trim_end_nulls s = [] \/ hd 1 (trim_end_nulls s) = hd 1 s).
Proof.
  intros s. induction s as [|c s IHs]; [|destruct IHs as (b & E & L & H)]; [exists O; cbn; split; [reflexivity|split; [discriminate|now left]]|]. cbn [trim_end_nulls]. destruct (trim_end_nulls s) as [|x t] eqn:T.
  - destruct (N.eqb_spec c 0) as [->|NZ]; [exists (S b); cbn [app repeat] in *; rewrite E at 1; cbn; auto|]. exists b. rewrite E at 1. cbn. auto.
  - exists b. split; [cbn; rewrite E at 1; reflexivity|]. split; [exact L|]. right. reflexivity.
Qed.
Lemma trim_front_spec : forall s, exists a, s = repeat 0 a ++ trim_front s /\ hd 1 (trim_front s) <> 0.
Proof.
  intros s. induction s as [|c s IHs]; [|destruct IHs as (a & E & H)]; [exists O; cbn; split; [reflexivity|discriminate]|]. cbn [trim_front]. destruct c as [|p]; [exists (S a); cbn; split; [now rewrite <- E|exact H]|]. exists O. cbn. split; [reflexivity|discriminate].
Qed.
Lemma trim_bare : forall s, bare s (trim_nulls s).
Proof.
  intros s. unfold bare, trim_nulls. destruct (trim_front_spec s) as (a & E & H). destruct (trim_end_spec (trim_front s)) as (b & E2 & L & H2). exists a, b. split; [rewrite <- E2; exact E|]. split; [|exact L].
  destruct H2 as [->|H2]; [cbn; discriminate|]. now rewrite H2.
Qed.
Lemma trim_id : forall s, hd 1 s <> 0 -> last s 1 <> 0 -> trim_nulls s = s.
Proof.
  intros s H L. unfold trim_nulls. replace (trim_front s) with s by (destruct s as [|[|p] s]; auto; cbn in H; congruence). destruct (trim_end_spec s) as (b & E & _). destruct b as [|b]; [cbn in E; rewrite app_nil_r in E; auto|].
  exfalso. apply L. rewrite E. replace (repeat 0 (S b)) with (repeat 0 b ++ [0]) by (symmetry; apply (repeat_cons b 0)). rewrite app_assoc, last_last. reflexivity.
Qed.
Inductive shown : riff -> list tag_item -> Prop :=
| S_nil : shown [] []
| S_known : forall k v w ik r l, from_key RiffInfo k = Some ik -> bare v w -> shown r l -> shown ((k, v) :: r) (new_item ik (VText w) :: l)
| S_other : forall k v r l, from_key RiffInfo k = None -> shown r l -> shown ((k, v) :: r) l.
Theorem C212_shown : forall C r, shown r (t_items (tag_of_riff (C := C) r)) /\ t_type (tag_of_riff (C := C) r) = RiffInfo.
Proof.
  intros C r. split; [|reflexivity]. cbn [tag_of_riff t_items]. induction r as [|[k v] r IH]; [constructor|]. cbn [filter_map]. unfold item_of_riff at 1. cbn [fst snd]. destruct (from_key RiffInfo k) eqn:E; [|now constructor]. constructor; auto. apply trim_bare.
Qed.
Definition riff_key (k : str) : Prop := exists ik, map_key RiffInfo ik = Some k.
Theorem C212_roundtrip : forall C r, Forall (fun e => riff_key (fst e) /\ hd 1 (snd e) <> 0 /\ last (snd e) 1 <> 0) r -> riff_of_tag (tag_of_riff (C := C) r) = r.
Proof.
  intros C r F. unfold riff_of_tag. cbn [tag_of_riff t_items]. induction F as [|[k v] r ((ik & M) & H & L) F IH]; [reflexivity|]. cbn [filter_map fst snd] in *. unfold item_of_riff at 1. cbn [fst snd].
  destruct (C23_tables _ _ _ M) as (k' & FK & MK & _). rewrite FK. cbn [filter_map]. unfold riff_of_item at 1. cbn [new_item it_value it_key value_into_string]. rewrite MK, IH, trim_id by auto. reflexivity.
Qed.
(** Back: the items with a text or a link under a key of the format, as texts, in order *)
Definition texts_only (i : tag_item) : option tag_item :=
  match it_value i with VText s | VLocator s => match map_key RiffInfo (it_key i) with Some _ => Some (new_item (it_key i) (VText (trim_nulls s))) | None => None end | VBinary _ => None end.
Lemma riff_exact : forall ik k, map_key RiffInfo ik = Some k -> from_key RiffInfo k = Some ik.
Proof. intros ik k M. destruct (C23_tables _ _ _ M) as (k' & F & _ & [->|I]); auto. cbn in I. repeat (destruct I as [I|I]; [discriminate|]). destruct I. Qed.
Theorem C212_back : forall C (t : tag C), t_items (tag_of_riff (C := C) (riff_of_tag t)) = filter_map texts_only (t_items t).
Proof.
  intros C t. cbn [tag_of_riff t_items]. unfold riff_of_tag. induction (t_items t) as [|i l IH]; [reflexivity|]. cbn [filter_map]. unfold riff_of_item at 1, texts_only at 1. unfold value_into_string.
  destruct (it_value i) as [s|s|b]; [| |exact IH]; (destruct (map_key RiffInfo (it_key i)) as [k|] eqn:M; [|exact IH]; cbn [filter_map]; unfold item_of_riff at 1; cbn [fst snd]; rewrite (riff_exact _ _ M), IH; reflexivity).
Qed.
(** Items under other keys are lost, also when the tag is split and merged again; ITRK becomes IPRT. *)
Theorem C212_unknown_refuted : forall C r k v, from_key RiffInfo k = None -> riff_of_tag (tag_of_riff (C := C) ((k, v) :: r)) = riff_of_tag (tag_of_riff (C := C) r).
Proof. intros C r k v F. unfold riff_of_tag. cbn [tag_of_riff t_items filter_map]. unfold item_of_riff at 1. cbn [fst]. now rewrite F. Qed.
Theorem C212_alias_refuted : riff_of_tag (tag_of_riff (C := unit) [($"ITRK", $"3"); ($"IENG", $"x")]) = [($"IPRT", $"3")].
Proof. vm_compute. reflexivity. Qed.
Example C212_example : t_items (tag_of_riff (C := unit) [($"INAM", [0; 65; 0]); ($"IXXX", [66]); ($"inam", [66])]) = [new_item KTrackTitle (VText [65]); new_item KTrackTitle (VText [66])] /\ riff_key ($"IPRT").
Proof. split; [vm_compute; reflexivity|]. now exists KTrackNumber. Qed.

(** ** C213: a generic tag that is written as an INFO list is written like its conversion. *)
Theorem C213_same : forall C custom (t : tag C), Forall (fun i => it_key i <> KPopularimeter) (t_items t) -> riff_ref custom t = riff_of_tag t.
Proof.
  intros C custom t F. unfold riff_ref, riff_of_tag. induction F as [|i l N F IH]; [reflexivity|]. cbn [filter_map]. rewrite IH. unfold riff_ref_item, riff_of_item. rewrite (ik_eqb_neq _ _ N). reflexivity.
Qed.
(** A rating is written as its number; a text that is no rating is left out. *)
Theorem C213_rating : forall custom i s, it_key i = KPopularimeter -> it_value i = VText s ->
  riff_ref_item custom i = match popm_from_str custom s with Some p => Some ($"IRTD", to_dec (rate (pm_provider p) RiffInfo (pm_rating p))) | None => None end.
Proof. intros custom i s K V. unfold riff_ref_item. rewrite K, V. reflexivity. Qed.
(** Converted, it is the text of the rating. *)
Theorem C213_rating_refuted : exists (t : tag unit), riff_ref DefaultProvider t = [($"IRTD", $"60")] /\ riff_of_tag t = [($"IRTD", $"|3|7")].
Proof. exists (mkTag RiffInfo [] [new_item KPopularimeter (VText ($"|3|7"))] None). split; vm_compute; reflexivity. Qed.
Lemma no_bar : forall s, ~ In 124 s -> split_once 124 s = None.
Proof. induction s as [|x s IH]; intros N; [reflexivity|]. cbn [split_once]. destruct (N.eqb_spec x 124) as [->|]; [destruct N; now left|]. rewrite IH; auto. intros I. apply N. now right. Qed.
Lemma dec_no_bar : forall n, ~ In 124 (to_dec n).
Proof. intros n I. destruct (to_dec_spec n) as (F & _). rewrite Forall_forall in F. specialize (F _ I). vm_compute in F. discriminate. Qed.
Lemma front_in : forall s x, In x (trim_nulls s) -> In x s.
Proof. intros s x I. destruct (trim_bare s) as (a & b & E & _). rewrite E. rewrite !in_app_iff. auto. Qed.
(** Written and read again no rating is left: the number does not parse as one. *)
Theorem C213_lost_refuted : forall C custom custom' (t : tag C), ratings custom' (tag_of_riff (C := C) (riff_ref custom t)) = [].
Proof.
  intros C custom custom' t. unfold ratings, get_strings. cbn [tag_of_riff t_items]. unfold riff_ref. induction (t_items t) as [|i l IH]; [reflexivity|]. cbn [filter_map]. destruct (riff_ref_item custom i) as [[k v]|] eqn:R; [|exact IH].
  cbn [filter_map]. unfold item_of_riff at 1. cbn [fst snd]. destruct (from_key RiffInfo k) as [ik|] eqn:F; [|exact IH]. cbn [filter_map new_item it_key it_value value_text]. destruct (ik_eqb ik KPopularimeter) eqn:P; [|exact IH]. cbn [filter_map].
  unfold riff_ref_item in R. destruct (value_into_string (it_value i)) as [s|]; [|discriminate]. destruct (map_key RiffInfo (it_key i)) as [k0|] eqn:M; [|discriminate]. destruct (ik_eqb (it_key i) KPopularimeter) eqn:P'.
  - destruct (popm_from_str custom s) as [p|]; [|discriminate]. injection R as <- <-. unfold popm_from_str at 1. unfold splitn. rewrite no_bar; [exact IH|]. intros I. apply front_in in I. now apply dec_no_bar in I.
  - injection R as <- <-. apply riff_exact in M. rewrite M in F. injection F as <-. congruence.
Qed.
Example C213_example : riff_ref DefaultProvider (mkTag (C := unit) RiffInfo [] [new_item KTrackTitle (VText ($"a")); new_item KPopularimeter (VText ($"no rating")); new_item KComment (VBinary [1])] None) = [($"INAM", $"a")].
Proof. vm_compute. reflexivity. Qed.

(** ** C214: AIFF text chunks as generic tags and back *)
Definition texts {C} (t : tag C) (k : item_key) : list str := filter_map (fun i => value_into_string (it_value i)) (with_key k (t_items t)).
Lemma loop_rest : forall St k (f : St -> tag_item -> bool * St) D s P split, Forall (fun i => ik_eqb (it_key i) k = false) D -> take_loop (length D) (length P) split k f s (P ++ D) = (P ++ D, split).
Proof.
  intros St k f D. induction D as [|i D IH]; intros s P split F; [reflexivity|]. apply Forall_cons_iff in F as [F0 F]. cbn [length take_loop]. rewrite nth_error_mid, F0.
  replace (P ++ i :: D) with ((P ++ [i]) ++ D) by (now rewrite <- app_assoc). rewrite <- (IH s (P ++ [i]) split F). f_equal. rewrite app_length. cbn. lia.
Qed.
Lemma loop_front : forall k B D P, Forall (fun i => ik_eqb (it_key i) k = true) B -> Forall (fun i => ik_eqb (it_key i) k = false) D ->
  take_loop (length (B ++ D)) (length P) (length P) k (fun (_ : unit) _ => (true, tt)) tt (P ++ B ++ D) = (P ++ B ++ D, length (P ++ B)).
Proof.
  intros k B. induction B as [|i B IH]; intros D P FB FD; [cbn [app]; rewrite app_nil_r; now apply loop_rest|]. apply Forall_cons_iff in FB as [F0 FB]. cbn [app length take_loop]. rewrite nth_error_mid, F0, swap_same.
  replace (P ++ i :: B ++ D) with ((P ++ [i]) ++ B ++ D) by (now rewrite <- app_assoc). replace (P ++ i :: B) with ((P ++ [i]) ++ B) by (now rewrite <- app_assoc). rewrite <- (IH D (P ++ [i])) by auto. f_equal; rewrite app_length; cbn; lia.
Qed.
Lemma take_front : forall C (t : tag C) k B D, t_items t = B ++ D -> Forall (fun i => ik_eqb (it_key i) k = true) B -> Forall (fun i => ik_eqb (it_key i) k = false) D ->
  take_strings k t = (filter_map (fun i => value_into_string (it_value i)) B, with_items t D).
Proof.
  intros C t k B D E FB FD. unfold take_strings, take, take_filter. rewrite E. assert (L := loop_front k B D [] FB FD). cbn [app] in L. cbn [length] in L. rewrite L.
  rewrite firstn_app, Nat.sub_diag, firstn_all, skipn_app, Nat.sub_diag, skipn_all. cbn [firstn skipn app]. now rewrite app_nil_r.
Qed.
Lemma fm_texts : forall k l, filter_map (fun i => value_into_string (it_value i)) (map (fun s => new_item k (VText s)) l) = l.
Proof. induction l; cbn; congruence. Qed.
Theorem C214_roundtrip : forall C a, aiff_of_tag (tag_of_aiff (C := C) a) =
  mkAt (at_name a) (at_author a) (at_copy a)
    (match (match at_anno a with Some l => l | None => [] end) ++ map ct_text (match at_comments a with Some l => l | None => [] end) with [] => None | s :: l => Some (s :: l) end) None.
Proof.
  intros C [name author copy anno comments]. unfold aiff_of_tag, tag_of_aiff. cbn [at_name at_author at_copy at_anno at_comments].
  set (cs := list_items (match anno with Some l => l | None => [] end) ++ list_items (map ct_text (match comments with Some l => l | None => [] end))).
  assert (CK : Forall (fun i => it_key i = KComment) cs). { unfold cs, list_items. apply Forall_app. split; apply Forall_map; apply Forall_forall; intros; reflexivity. }
  assert (NC : forall k, k <> KComment -> Forall (fun i => ik_eqb (it_key i) k = false) cs). { intros k N. eapply Forall_impl; [|exact CK]. cbv beta. intros i ->. apply ik_eqb_neq. auto. }
  assert (TX : filter_map (fun i => value_into_string (it_value i)) cs = (match anno with Some l => l | None => [] end) ++ map ct_text (match comments with Some l => l | None => [] end)) by (unfold cs, list_items; rewrite <- map_app; apply fm_texts). clearbody cs.
  assert (OK : forall k o, Forall (fun i => it_key i = k) (opt_items k o)) by (intros k [s|]; repeat constructor).
  assert (OT : forall k o, Forall (fun i => ik_eqb (it_key i) k = true) (opt_items k o)). { intros k o. eapply Forall_impl; [|apply OK]. cbv beta. intros i ->. apply ik_eqb_refl. }
  assert (OF : forall k k' o, k <> k' -> Forall (fun i => ik_eqb (it_key i) k' = false) (opt_items k o)). { intros k k' o N. eapply Forall_impl; [|apply OK]. cbv beta. intros i ->. now apply ik_eqb_neq. }
  rewrite (take_front C _ KTrackTitle (opt_items KTrackTitle name) (opt_items KTrackArtist author ++ opt_items KCopyrightMessage copy ++ cs)); [|reflexivity|apply OT|repeat (apply Forall_app; split); first [apply OF|apply NC]; discriminate].
  rewrite (take_front C _ KTrackArtist (opt_items KTrackArtist author) (opt_items KCopyrightMessage copy ++ cs)); [|reflexivity|apply OT|repeat (apply Forall_app; split); first [apply OF|apply NC]; discriminate].
  rewrite (take_front C _ KCopyrightMessage (opt_items KCopyrightMessage copy) cs); [|reflexivity|apply OT|apply NC; discriminate].
  rewrite (take_front C _ KComment cs []); [|cbn; now rewrite app_nil_r|eapply Forall_impl; [|exact CK]; cbv beta; intros i ->; reflexivity|constructor].
  assert (H : forall k o, hd_error (filter_map (fun i => value_into_string (it_value i)) (opt_items k o)) = o) by (intros k [s|]; reflexivity). rewrite !H, TX. f_equal. now destruct (_ ++ _).
Qed.
(** Any tag: the first title; some artist, some copyright message and all comments, in some order *)
Lemma take_strings_perm : forall C (t : tag C) k, exists t', take_strings k t = (texts t k, t') /\ forall k', k' <> k -> Permutation (texts t' k') (texts t k').
Proof.
  intros C t k. unfold take_strings. destruct (C26_take_partial C k t) as (t' & E & P & _). rewrite E. exists t'. split; [reflexivity|]. intros k' N. unfold texts.
  assert (FM : forall (l l' : list tag_item), Permutation l l' -> Permutation (filter_map (fun i => value_into_string (it_value i)) l) (filter_map (fun i => value_into_string (it_value i)) l')).
  { intros l l' X. induction X; cbn [filter_map]; auto; repeat match goal with |- context [match value_into_string ?v with _ => _ end] => destruct (value_into_string v) end; auto using perm_swap. eapply perm_trans; eauto. }
  assert (FL : forall (p : tag_item -> bool) l l', Permutation l l' -> Permutation (filter p l) (filter p l')).
  { intros p l l' X. induction X; cbn [filter]; auto; repeat match goal with |- context [if p ?v then _ else _] => destruct (p v) end; auto using perm_swap. eapply perm_trans; eauto. }
  apply FM. unfold with_key at 1. eapply perm_trans; [apply FL; exact P|]. fold (with_key k' (without_key k (t_items t))). rewrite with_other by auto. reflexivity.
Qed.
Theorem C214_of_tag : forall C (t : tag C), let a := aiff_of_tag t in
  at_name a = hd_error (texts t KTrackTitle) /\ at_comments a = None /\
  (exists l, Permutation l (texts t KTrackArtist) /\ at_author a = hd_error l) /\ (exists l, Permutation l (texts t KCopyrightMessage) /\ at_copy a = hd_error l) /\
  (exists l, Permutation l (texts t KComment) /\ at_anno a = match l with [] => None | _ => Some l end).
Proof.
  intros C t. unfold aiff_of_tag. destruct (take_strings_perm C t KTrackTitle) as (t1 & -> & P1). destruct (take_strings_perm C t1 KTrackArtist) as (t2 & -> & P2). destruct (take_strings_perm C t2 KCopyrightMessage) as (t3 & -> & P3).
  destruct (take_strings_perm C t3 KComment) as (t4 & -> & _). cbn [at_name at_author at_copy at_anno at_comments]. repeat split.
  - exists (texts t1 KTrackArtist). split; auto. apply P1. discriminate.
  - exists (texts t2 KCopyrightMessage). split; auto. eapply perm_trans; [apply P2; discriminate|apply P1; discriminate].
  - exists (texts t3 KComment). split; auto. eapply perm_trans; [apply P3; discriminate|]. eapply perm_trans; [apply P2; discriminate|apply P1; discriminate].
Qed.
(** The comments do change their order if a title stands behind them. *)
Definition late_title : tag unit := mkTag AiffText [] [new_item KComment (VText ($"a")); new_item KComment (VText ($"b")); new_item KTrackTitle (VText ($"t"))] None.
Theorem C214_order_refuted : at_anno (aiff_of_tag late_title) = Some [$"b"; $"a"] /\ at_anno (aiff_ref late_title) = Some [$"a"; $"b"].
Proof. split; vm_compute; reflexivity. Qed.
(** Comments with time stamps become annotations. *)
Theorem C214_comments_refuted : forall C a l, at_comments a = Some l -> aiff_of_tag (tag_of_aiff (C := C) a) <> a.
Proof. intros C a l E H. rewrite C214_roundtrip in H. rewrite <- H in E. discriminate. Qed.
(** What the writers make of a tag: the same, if no key has two texts or values that are no texts; except for the order of the comments *)
Lemma fm_with : forall C (t : tag C) k, Forall (fun i => exists s, it_value i = VText s) (with_key k (t_items t)) -> get_strings t k = texts t k /\ get_string t k = hd_error (texts t k).
Proof.
  intros C t k F. unfold get_strings, get_string, texts. rewrite get_hd. unfold with_key in *. induction (t_items t) as [|i l IH]; [split; reflexivity|]. cbn [filter filter_map] in *. destruct (ik_eqb (it_key i) k).
  - apply Forall_cons_iff in F as [(s & V) F]. destruct (IH F) as [I1 _]. cbn [filter_map hd_error]. rewrite V. cbn [value_text value_into_string hd_error]. rewrite I1. auto.
  - now apply IH.
Qed.
Theorem C214_writer : forall C (t : tag C), (forall k, Forall (fun i => exists s, it_value i = VText s) (with_key k (t_items t))) -> (forall k, k <> KComment -> (length (texts t k) <= 1)%nat) ->
  at_name (aiff_of_tag t) = at_name (aiff_ref t) /\ at_author (aiff_of_tag t) = at_author (aiff_ref t) /\ at_copy (aiff_of_tag t) = at_copy (aiff_ref t) /\
  exists l, at_anno (aiff_ref t) = Some l /\ Permutation (match at_anno (aiff_of_tag t) with Some l' => l' | None => [] end) l.
Proof.
  intros C t F ONE. destruct (C214_of_tag C t) as (A & _ & (l1 & P1 & B) & (l2 & P2 & D) & (l3 & P3 & E)). unfold aiff_ref. cbn [at_name at_author at_copy at_anno].
  assert (O : forall l k, k <> KComment -> Permutation l (texts t k) -> l = texts t k).
  { intros l k N P. specialize (ONE k N). destruct (texts t k) as [|x [|y r]] eqn:T; cbn in ONE; [|apply Permutation_length_1_inv; now symmetry|lia]. now apply Permutation_nil, Permutation_sym. }
  rewrite (proj2 (fm_with C t KTrackTitle (F _))), (proj2 (fm_with C t KTrackArtist (F _))), (proj2 (fm_with C t KCopyrightMessage (F _))). rewrite A, B, D, E, (O l1 KTrackArtist), (O l2 KCopyrightMessage); auto; try discriminate.
  repeat split. eexists. split; [reflexivity|]. rewrite (proj1 (fm_with C t KComment (F _))). destruct l3; auto.
Qed.
(** A title that is a link is converted but not written. *)
Theorem C214_link_refuted : let t : tag unit := mkTag AiffText [] [new_item KTrackTitle (VLocator ($"u"))] None in at_name (aiff_of_tag t) = Some ($"u") /\ at_name (aiff_ref t) = None.
Proof. split; reflexivity. Qed.
Example C214_example : aiff_of_tag (tag_of_aiff (C := unit) (mkAt (Some ($"n")) None (Some ($"c")) (Some [$"x"; $"y"]) (Some [mkComt 1 2 ($"z")]))) = mkAt (Some ($"n")) None (Some ($"c")) (Some [$"x"; $"y"; $"z"]) None.
Proof. reflexivity. Qed.

(** ** C215: accessors of RIFF INFO lists *)
Definition RIFF_TEXTS : list str := [$"IART"; $"INAM"; $"IPRD"; $"IGNR"; $"ICMT"].
Lemma acc_key : forall key, In key (RIFF_TEXTS ++ [$"IPRT"; $"IFRM"; $"ICRD"]) -> key_ok key.
Proof. intros key I. cbn in I. repeat (destruct I as [<-|I]; [apply id_ok_valid; split; reflexivity|]). destruct I. Qed.
Theorem C215_text : forall r key v, distinct_keys r -> In key RIFF_TEXTS ->
  riff_get (riff_insert r key v) key = Some v /\ riff_get (fst (riff_remove r key)) key = None /\
  forall key', eq_ignore_case key' key = false -> riff_get (riff_insert r key v) key' = riff_get r key' /\ riff_get (fst (riff_remove r key)) key' = riff_get r key'.
Proof.
  intros r key v D I. assert (K : key_ok key) by (apply acc_key; apply in_or_app; auto). destruct (C113_insert r key v D K) as (_ & _ & G & O). split; auto. rewrite (proj1 (C113_remove r key D)). split; [now rewrite get_others, eq_ignore_case_refl|].
  intros key' E. split; [now apply O|]. now rewrite get_others, E.
Qed.
Theorem C215_number : forall r key n, distinct_keys r -> In key [$"IPRT"; $"IFRM"] -> n <= U32_MAX -> riff_number key (riff_set_number key n r) = Some n /\ riff_number key (fst (riff_remove r key)) = None.
Proof.
  intros r key n D I L. assert (K : key_ok key) by (apply acc_key; apply in_or_app; right; cbn in *; tauto). unfold riff_number, riff_set_number. destruct (C113_insert r key (to_dec n) D K) as (_ & _ & -> & _). rewrite (proj1 (C113_remove r key D)), get_others, eq_ignore_case_refl.
  split; [now apply parse_uint_to_dec|reflexivity].
Qed.
Theorem C215_date : forall r d, distinct_keys r -> ts_verify d = Ok tt -> riff_date (riff_set_date d r) = Some d /\ riff_date (fst (riff_remove r ($"ICRD"))) = None.
Proof.
  intros r d D V. assert (K : key_ok ($"ICRD")) by (apply acc_key; cbn; tauto). unfold riff_date, riff_set_date. destruct (C113_insert r ($"ICRD") (ts_display d) D K) as (_ & _ & -> & _). rewrite (proj1 (C113_remove r _ D)), get_others, eq_ignore_case_refl.
  split; [|reflexivity]. rewrite utf8_ascii by apply display_ascii. now rewrite (proj1 (C18_roundtrip d Relaxed V)).
Qed.
(** On a list from a file the accessors see less than the generic tag: *)
Theorem C215_case_refuted : exists r, riff_contains r ($"INAM") = true /\ riff_get r ($"INAM") = None /\ get_string (tag_of_riff (C := unit) r) KTrackTitle = Some ($"x").
Proof. exists [($"inam", $"x")]. repeat split; vm_compute; reflexivity. Qed.
Theorem C215_track_refuted : exists r, riff_number ($"IPRT") r = None /\ get_u32 (tag_of_riff (C := unit) r) KTrackNumber = Some 3.
Proof. exists [($"ITRK", $"3")]. split; vm_compute; reflexivity. Qed.
Example C215_example : riff_number ($"IPRT") [($"IPRT", $"12")] = Some 12 /\ riff_number ($"IPRT") [($"IPRT", $"1/2")] = None /\ riff_set_number ($"IFRM") 7 [] = [($"IFRM", $"7")].
Proof. repeat split; vm_compute; reflexivity. Qed.

(** ** C216: accessors and counts of AIFF text chunks *)
Theorem C216_comment : forall s a, at_comment (at_set_comment s a) = Some s /\ at_comments (at_set_comment s a) = at_comments a.
Proof. intros s [n au c an co]. split; reflexivity. Qed.
Theorem C216_remove_refuted : forall a c l, at_comments a = Some (c :: l) -> at_comment (at_remove_comment a) = Some (ct_text c).
Proof. intros [n au cp an co] c l E. cbn in *. now rewrite E. Qed.
Theorem C216_counts : forall a, (at_anno a <> Some []) -> (at_comments a <> Some []) ->
  (at_is_empty a = true <-> at_len a = 0) /\ (forall k, at_contains a k = true <-> exists i, In i (t_items (tag_of_aiff (C := unit) a)) /\ it_key i = k).
Proof.
  intros [n au c an co] NA NC. cbn [at_anno at_comments] in *. split.
  - unfold at_is_empty, at_len. cbn [at_name at_author at_copy at_anno at_comments]. destruct n, au, c; cbn [opt_len]; try (split; [discriminate|lia]). destruct an as [[|x l]|]; [congruence| |]; cbn [list_len]; rewrite ?lenN_cons; try (split; [discriminate|lia]). destruct co as [[|y l]|]; [congruence| |]; cbn [list_len]; rewrite ?lenN_cons; split; auto; try discriminate; lia.
  - intros k. unfold tag_of_aiff. cbn [t_items at_name at_author at_copy at_anno at_comments].
    assert (L : forall l i, In i (list_items l) <-> exists s, In s l /\ i = new_item KComment (VText s)). { intros l i. unfold list_items. rewrite in_map_iff. split; intros (s & A & B); exists s; auto. }
    assert (O : forall k o i, In i (opt_items k o) <-> exists s, o = Some s /\ i = new_item k (VText s)). { intros k0 [s|] i; cbn; split; [intros [<-|[]]; eauto|intros (s0 & [= ->] & ->); auto|intros []|intros (s0 & [=] & _)]. }
    split.
    + unfold at_contains. cbn [at_name at_author at_copy at_anno at_comments]. intros H. destruct k; try discriminate H;
        try (match type of H with is_some ?o = true => destruct o as [s|]; [|discriminate H] end; eexists; split; [rewrite !in_app_iff, !O; eauto 8|reflexivity]).
      apply orb_true_iff in H as [H|H]; [destruct an as [[|s l]|]; try discriminate H; [congruence|]; exists (new_item KComment (VText s))|destruct co as [[|s l]|]; try discriminate H; [congruence|]; exists (new_item KComment (VText (ct_text s)))]; (split; [|reflexivity]); rewrite !in_app_iff, !L; cbn; eauto 10.
    + intros (i & I & <-). rewrite !in_app_iff, !O, !L in I. unfold at_contains. cbn [at_name at_author at_copy at_anno at_comments]. destruct I as [(s & -> & ->)|[(s & -> & ->)|[(s & -> & ->)|[(s & I & ->)|(s & I & ->)]]]]; try reflexivity; cbn [new_item it_key].
      * destruct an; [reflexivity|destruct I].
      * destruct co; [apply orb_true_r|destruct I].
Qed.
Theorem C216_empty_list_refuted : let a := mkAt None None None (Some []) None in at_len a = 0 /\ at_is_empty a = false /\ at_contains a KComment = true /\ at_comment a = None.
Proof. repeat split. Qed.
Example C216_example : at_len (mkAt (Some ($"n")) None None (Some [$"a"; $"b"]) None) = 3 /\ at_contains (mkAt (Some ($"n")) None None (Some [$"a"; $"b"]) None) KComment = true.
Proof. split; reflexivity. Qed.

(** ** C217: a generic tag saved to a WAV or AIFF file reads back. *)
Lemma plain_facts : forall m cs, Forall (plain m) cs -> Forall chunk_ok cs /\ Forall list_ok cs /\ Forall (fun c => is_info c = false) cs.
Proof. intros m cs P. repeat split; (eapply Forall_impl; [|exact P]; intros c (A & B & D & _); auto). Qed.
(** What the generic tag made of the file shows: its texts and links under keys of the format that are not empty, ratings as numbers. *)
Theorem C217_wav : forall C custom m cs junk (t : tag C), Forall (plain m) cs -> lenN junk < 8 -> riff_ok (riff_ref custom t) -> 12 + lenN (body false cs) < 2 ^ 32 -> 4 + lenN (body false (cs ++ info_chunks (riff_ref custom t))) < 2 ^ 32 ->
  exists ops r, write_riff_info m (riff_file cs ++ junk) (riff_ref custom t) = Ok ops /\ reads_info m (apply_log (riff_file cs ++ junk) ops) r /\
    (Forall (fun i => it_key i <> KPopularimeter) (t_items t) -> t_items (tag_of_riff (C := C) r) = filter_map (fun i => if value_is_empty (it_value i) then None else texts_only i) (t_items t)).
Proof.
  intros C custom m cs junk t P J RO L1 L2. destruct (plain_facts m cs P) as (CO & LO & NI). destruct (C105_new_list m cs junk _ CO LO NI RO L1 L2) as (ops & W & A). exists ops, (IffProof2.kept (riff_ref custom t)). split; auto. split.
  - rewrite A. assert (RB := C105_read_back m cs [] junk (riff_ref custom t)). rewrite !app_nil_r in RB. apply RB; auto.
  - intros NP. rewrite C213_same by auto. clear - t. cbn [tag_of_riff t_items]. unfold riff_of_tag. induction (t_items t) as [|i l IH]; [reflexivity|]. cbn [filter_map]. unfold riff_of_item at 1, texts_only at 1, value_is_empty. unfold value_into_string.
    destruct (it_value i) as [s|s|b]; [| |destruct b; exact IH];
      (destruct (map_key RiffInfo (it_key i)) as [k|] eqn:M; [|destruct s; exact IH]; unfold IffProof2.kept; cbn [filter]; unfold filled at 1; cbn [snd]; destruct s as [|c s]; cbn [filter_map]; [exact IH|]; cbn [negb]; cbn [filter_map]; unfold item_of_riff at 1; cbn [fst snd]; rewrite (riff_exact _ _ M); fold (IffProof2.kept (filter_map riff_of_item l)); rewrite IH; reflexivity).
Qed.
Lemma filter_map_app : forall A B (f : A -> option B) a b, filter_map f (a ++ b) = filter_map f a ++ filter_map f b.
Proof. induction a as [|x a IH]; intros b; cbn; [reflexivity|]. rewrite IH. now destruct (f x). Qed.
Lemma comments_only : forall l k, filter_map (fun i => if ik_eqb (it_key i) k then value_text (it_value i) else None) (list_items l) = if ik_eqb KComment k then l else [].
Proof. intros l k. unfold list_items. induction l as [|s l IH]; cbn; [now destruct (ik_eqb KComment k)|]. rewrite IH. now destruct (ik_eqb KComment k). Qed.
Lemma comments_none : forall l l' k, ik_eqb KComment k = false -> find (fun i => ik_eqb (it_key i) k) (list_items l ++ list_items l') = None.
Proof. intros l l' k E. unfold list_items. induction l as [|s l IH]; cbn; [|now rewrite E]. induction l' as [|s l' IH]; cbn; [reflexivity|now rewrite E]. Qed.
Lemma seen_of_aiff : forall C a, get_string (tag_of_aiff (C := C) a) KTrackTitle = at_name a /\ get_string (tag_of_aiff (C := C) a) KTrackArtist = at_author a /\ get_string (tag_of_aiff (C := C) a) KCopyrightMessage = at_copy a /\
  get_strings (tag_of_aiff (C := C) a) KComment = match at_anno a with Some l => l | None => [] end ++ map ct_text (match at_comments a with Some l => l | None => [] end).
Proof.
  intros C [n au cp an co]. unfold get_string, get_strings, get, tag_of_aiff. cbn [t_items at_name at_author at_copy at_anno at_comments]. set (l := match an with Some l => l | None => [] end). set (l' := map ct_text _). clearbody l l'.
  repeat split; try (destruct n, au, cp; cbn; rewrite ?comments_none by reflexivity; reflexivity).
  destruct n, au, cp; cbn [opt_items app filter_map new_item it_key it_value]; cbn [ik_eqb]; cbn; rewrite filter_map_app, !comments_only; reflexivity.
Qed.
Theorem C217_aiff : forall C m m' kind (t : tag C) a c b, aiff_kind kind -> text_ok (aiff_ref t) -> Forall (other m') (a ++ [c] ++ b) -> fst c = $"COMM" -> Forall (fun c => fst c <> $"COMM") b ->
  4 + lenN (body true (a ++ c :: text_chunks (aiff_ref t) ++ b)) < 2 ^ 32 ->
  exists ops r, write_aiff_text m (form_file kind (a ++ c :: b)) (aiff_ref t) = Ok ops /\ reads_text m' (apply_log (form_file kind (a ++ c :: b)) ops) r /\
  match r with
  | None => get_string t KTrackTitle = None /\ get_string t KTrackArtist = None /\ get_string t KCopyrightMessage = None /\ get_strings t KComment = []
  | Some r => get_string (tag_of_aiff (C := C) r) KTrackTitle = get_string t KTrackTitle /\ get_string (tag_of_aiff (C := C) r) KTrackArtist = get_string t KTrackArtist /\
      get_string (tag_of_aiff (C := C) r) KCopyrightMessage = get_string t KCopyrightMessage /\ get_strings (tag_of_aiff (C := C) r) KComment = get_strings t KComment
  end.
Proof.
  intros C m m' kind t a c b K TO O CM NB L. destruct (C108_read_back m m' kind (aiff_ref t) a c b K TO I O CM NB L) as (ops & W & R). exists ops, (norm_text (aiff_ref t)). split; auto. split; auto.
  destruct (seen_of_aiff C (aiff_ref t)) as (A1 & A2 & A3 & A4). unfold norm_text, aiff_ref in *. cbn [at_name at_author at_copy at_anno at_comments] in *.
  destruct (get_strings t KComment) as [|s l]; [|cbn [at_is_empty at_anno at_name at_author at_copy]].
  - destruct (get_string t KTrackTitle), (get_string t KTrackArtist), (get_string t KCopyrightMessage); cbn [at_is_empty at_name at_author at_copy at_anno at_comments]; repeat split; auto.
  - destruct (get_string t KTrackTitle), (get_string t KTrackArtist), (get_string t KCopyrightMessage); repeat split; auto; rewrite A4; apply app_nil_r.
Qed.
Example C217_example : exists ops, write_riff_info Strict (riff_file wave1) (riff_ref DefaultProvider (mkTag (C := unit) RiffInfo [] [new_item KTrackTitle (VText ($"Name")); new_item KComment (VText [])] None)) = Ok ops /\
  reads_info Strict (apply_log (riff_file wave1) ops) [($"INAM", $"Name")].
Proof. eexists. split; [vm_compute; reflexivity|]. eexists. split; vm_compute; reflexivity. Qed.

Print Assumptions C212_shown.
Print Assumptions C212_roundtrip.
Print Assumptions C212_back.
Print Assumptions C212_unknown_refuted.
Print Assumptions C212_alias_refuted.
Print Assumptions C213_same.
Print Assumptions C213_rating.
Print Assumptions C213_rating_refuted.
Print Assumptions C213_lost_refuted.
Print Assumptions C214_roundtrip.
Print Assumptions C214_of_tag.
Print Assumptions C214_order_refuted.
Print Assumptions C214_comments_refuted.
Print Assumptions C214_writer.
Print Assumptions C214_link_refuted.
Print Assumptions C215_text.
Print Assumptions C215_number.
Print Assumptions C215_date.
Print Assumptions C215_case_refuted.
Print Assumptions C215_track_refuted.
Print Assumptions C216_comment.
Print Assumptions C216_remove_refuted.
Print Assumptions C216_counts.
Print Assumptions C216_empty_list_refuted.
Print Assumptions C217_wav.
Print Assumptions C217_aiff.
