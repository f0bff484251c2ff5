(** Conversions there and back: C133, C134. *)
From Coq Require Import Permutation.
From Verif Require Import BaseLemmas StrLemmas ItemKeyThm TagThm IlstModel IlstThm IlstProof IlstThm2.

(** An Ilst converted to a Tag and back, with the format specific items preserved. *)
Definition again (l : ilst) : ilst := ilst_of_tag true (tag_of_ilst true l).
Lemma again_eq : forall l, again l = merge_tag (fst (split_tag l)) (snd (split_tag l)).
Proof.
  intro l. unfold again, tag_of_ilst. pose proof (split_tag_spec l) as (_ & _ & _ & CO & _). destruct (split_tag l) as [rest t]. cbn [fst snd andb] in *. destruct rest as [|a rest].
  - change (0 <? lenN []) with false. cbv iota. unfold ilst_of_tag. now rewrite CO.
  - replace (0 <? lenN (a :: rest)) with true by (unfold lenN; cbn [length]; lia). reflexivity.
Qed.
Lemma left_ident : forall a b, atom_left a = Some b -> at_ident b = at_ident a.
Proof.
  intros a b. unfold atom_left. destruct (key_dec _ _); [destruct (ident_dec _ _)|]; try (destruct (filter _ _); [discriminate|]; intro H; inversion H; reflexivity). intro H. now inversion H.
Qed.
Lemma only_left : forall i l, only i (TagModel.filter_map atom_left l) = TagModel.filter_map atom_left (only i l).
Proof.
  intros i l. induction l as [|a l IH]; auto. cbn [TagModel.filter_map]. unfold only at 2. cbn [filter]. fold (only i l). destruct (ident_dec (at_ident a) i) as [E|E].
  - cbn [TagModel.filter_map]. destruct (atom_left a) as [b|] eqn:L; auto. unfold only at 1. cbn [filter]. fold (only i (TagModel.filter_map atom_left l)).
    rewrite (left_ident _ _ L), E. destruct (ident_dec i i); [|congruence]. now rewrite IH.
  - destruct (atom_left a) as [b|] eqn:L; auto. unfold only at 1. cbn [filter]. fold (only i (TagModel.filter_map atom_left l)).
    rewrite (left_ident _ _ L). destruct (ident_dec (at_ident a) i); [congruence|]. exact IH.
Qed.
Lemma rest_cases : forall l, let rest0 := TagModel.filter_map atom_left l in
  (advisory_rating rest0 = None /\ fst (split_tag l) = rest0) \/ (exists r, advisory_rating rest0 = Some r /\ fst (split_tag l) = removed RTNG rest0).
Proof. intros l rest0. pose proof (split_tag_spec l) as (_ & _ & _ & _ & _ & D). fold rest0 in D. destruct (advisory_rating rest0); [right; eexists; split; eauto; tauto|left; tauto]. Qed.
Lemma rest_in : forall l b, In b (fst (split_tag l)) -> exists a, In a l /\ atom_left a = Some b.
Proof.
  intros l b I. assert (I0 : In b (TagModel.filter_map atom_left l)).
  { destruct (rest_cases l) as [[_ E]|(r & _ & E)]; rewrite E in I; auto. apply (Permutation_in _ (removed_perm _ _)) in I. unfold others in I. now apply filter_In in I. }
  clear I. induction l as [|a l IH]; [destruct I0|]. cbn [TagModel.filter_map] in I0. destruct (atom_left a) as [c|] eqn:L.
  - destruct I0 as [<-|I0]. exists a. split; auto. now left. destruct (IH I0) as (x & X & Y). exists x. split; auto. now right.
  - destruct (IH I0) as (x & X & Y). exists x. split; auto. now right.
Qed.
Lemma left_mapped : forall a b k, atom_left a = Some b -> (key_of_ident (at_ident a) = Some k \/ at_ident a = covr_ident) -> at_data b = filter (left_over (at_ident a)) (at_data a).
Proof.
  intros a b k L K. unfold atom_left in L. destruct (key_dec _ None) as [E|E]; [destruct (ident_dec _ _) as [E2|E2]|].
  2:{ destruct K; congruence. } all: destruct (filter _ _) eqn:F; [discriminate|]; inversion L; reflexivity.
Qed.
Lemma rest_texts : forall l k, texts k (fst (split_tag l)) = [].
Proof.
  intros l k. assert (G : forall r, (forall b, In b r -> exists a, In a l /\ atom_left a = Some b) -> texts k r = []).
  { induction r as [|b r IH]; intro H; auto. change (b :: r) with ([b] ++ r). rewrite texts_app, IH by (intros; apply H; now right). rewrite app_nil_r.
    destruct (H b (or_introl eq_refl)) as (a & _ & L). unfold texts. cbn [flat_map]. rewrite app_nil_r. destruct (key_dec _ _) as [E|]; auto.
    rewrite (left_ident _ _ L) in E. rewrite (left_mapped a b k L (or_introl E)). clear. induction (at_data a) as [|d ds IH]; auto. cbn [filter]. destruct (left_over (at_ident a) d) eqn:LO; auto.
    cbn [TagModel.filter_map]. rewrite IH. destruct d; try discriminate; reflexivity. }
  apply G. intros. now apply rest_in.
Qed.
Lemma rest_covers : forall l, covers (fst (split_tag l)) = [].
Proof.
  intro l. unfold covers. assert (G : forall r, (forall b, In b r -> exists a, In a l /\ atom_left a = Some b) -> all_pictures (only covr_ident r) = []).
  { induction r as [|b r IH]; intro H; auto. unfold only. cbn [filter]. fold (only covr_ident r). specialize (IH (fun b0 I => H b0 (or_intror I))). destruct (ident_dec _ _) as [E|]; auto.
    unfold all_pictures in *. cbn [flat_map]. rewrite IH, app_nil_r. destruct (H b (or_introl eq_refl)) as (a & _ & L). rewrite (left_ident _ _ L) in E.
    rewrite (left_mapped a b KYear L (or_intror E)). clear. unfold data_pictures. induction (at_data a) as [|d ds IH]; auto. cbn [filter]. destruct (left_over (at_ident a) d) eqn:LO; auto.
    cbn [TagModel.filter_map]. rewrite IH. destruct d; try discriminate; reflexivity. }
  apply G. intros. now apply rest_in.
Qed.
Lemma gs_landing : forall l k, plain_key k -> landing k (t_items (snd (split_tag l))) = TagModel.filter_map (stored k) (texts k l).
Proof.
  intros l k P. pose proof (split_tag_spec l) as (A & _ & _ & _ & G & _). rewrite landing_good; auto. 2:{ intro I. apply P. now right. }
  change (TagModel.filter_map (fun i => if ik_eqb (it_key i) k then value_text (it_value i) else None) (t_items (snd (split_tag l)))) with (get_strings (snd (split_tag l)) k). now rewrite A.
Qed.
(** C133 *)
Theorem C133_texts : forall l k, plain_key k -> texts k (again l) = TagModel.filter_map (stored k) (texts k l).
Proof. intros. rewrite again_eq, C132_texts, rest_texts by auto. now apply gs_landing. Qed.
Print Assumptions C133_texts.
Theorem C133_same_texts : forall l k, plain_key k -> k <> KFlagCompilation -> k <> KFlagPodcast -> texts k (again l) = texts k l.
Proof.
  intros l k P N1 N2. rewrite C133_texts by auto. assert (E : forall s, stored k s = Some s) by (intro; destruct k; try reflexivity; congruence).
  induction (texts k l) as [|s ss IH]; auto. cbn [TagModel.filter_map]. now rewrite E, IH.
Qed.
Print Assumptions C133_same_texts.
Theorem C133_pictures : forall l, covers (again l) = map as_other (covers l).
Proof. intros. rewrite again_eq, C132_pictures, rest_covers. pose proof (split_tag_spec l) as (_ & -> & _). reflexivity. Qed.
Print Assumptions C133_pictures.
Lemma left_all : forall i l, key_of_ident i = None -> i <> covr_ident -> TagModel.filter_map atom_left (only i l) = only i l.
Proof.
  intros i l K NC. induction l as [|a l IH]; auto. unfold only. cbn [filter]. fold (only i l). destruct (ident_dec (at_ident a) i) as [E|]; auto. cbn [TagModel.filter_map]. unfold atom_left at 1. rewrite E, K.
  destruct (key_dec None None); [|congruence]. destruct (ident_dec i covr_ident); [congruence|]. now rewrite IH.
Qed.
Lemma only_rest : forall i l, i <> RTNG -> Permutation (only i (fst (split_tag l))) (TagModel.filter_map atom_left (only i l)) /\
  (advisory_rating (TagModel.filter_map atom_left l) = None -> only i (fst (split_tag l)) = TagModel.filter_map atom_left (only i l)).
Proof.
  intros i l NR. rewrite <- only_left. destruct (rest_cases l) as [[N E]|(r & N & E)]; rewrite E; split; auto. apply only_removed_ne. congruence. intro X. congruence.
Qed.
Theorem C133_rest : forall l i, key_of_ident i = None -> i <> covr_ident ->
  Permutation (only i (again l)) (only i l) /\ (advisory_rating (TagModel.filter_map atom_left l) = None -> only i (again l) = only i l).
Proof.
  intros l i K NC. rewrite again_eq, C132_rest by auto. assert (NR : i <> RTNG) by (intros ->; vm_compute in K; discriminate). destruct (only_rest i l NR) as [A B]. rewrite left_all in * by auto. auto.
Qed.
Print Assumptions C133_rest.
(** values that are not text, picture, or a pair of numbers *)
Definition kept (i : ident) (l : ilst) : list adata := flat_map (fun a => filter (left_over i) (at_data a)) (only i l).
Lemma kept_perm : forall i l l', Permutation (only i l) (only i l') -> Permutation (kept i l) (kept i l').
Proof. intros. unfold kept. now apply Permutation_flat_map. Qed.
Lemma kept_app : forall i a b, kept i (a ++ b) = kept i a ++ kept i b.
Proof. intros. unfold kept. now rewrite only_app, flat_map_app. Qed.
Lemma kept_left : forall i l, flat_map (fun a => filter (left_over i) (at_data a)) (TagModel.filter_map atom_left (only i l)) = kept i l.
Proof.
  intros i l. unfold kept. induction l as [|a l IH]; auto. unfold only. cbn [filter]. fold (only i l). destruct (ident_dec (at_ident a) i) as [E|]; auto. cbn [TagModel.filter_map flat_map]. rewrite <- IH.
  assert (FF : forall ds, filter (left_over i) (filter (left_over i) ds) = filter (left_over i) ds).
  { clear. induction ds as [|d ds IH]; auto. cbn [filter]. destruct (left_over i d) eqn:L; auto. cbn [filter]. now rewrite L, IH. }
  unfold atom_left. rewrite E. destruct (key_dec (key_of_ident i) None) as [K|K]; [destruct (ident_dec i covr_ident) as [C|C]|]; auto.
  all: destruct (filter (left_over i) (at_data a)) eqn:F; auto; cbn [flat_map at_data]; rewrite <- F, FF; reflexivity.
Qed.
Theorem C133_values : forall l i, i <> RTNG -> Permutation (kept i (again l)) (kept i l).
Proof.
  intros l i NR. rewrite again_eq, merge_eq, !kept_app. assert (R : Permutation (kept i (fst (split_tag l))) (kept i l)).
  { rewrite <- (kept_left i l). unfold kept at 1. apply Permutation_flat_map. now apply only_rest. }
  assert (I : kept i (flat_map item_atoms (t_items (snd (split_tag l)))) = []).
  { induction (t_items (snd (split_tag l))) as [|x xs IH]; auto. cbn [flat_map]. rewrite kept_app, IH, app_nil_r. destruct (item_atoms x) as [|a r] eqn:IA; auto.
    destruct (item_atoms_spec x a) as (j & s & V & J & IA2 & AI & D). { rewrite IA. now left. } rewrite IA in IA2. inversion IA2; subst r. unfold kept, only. cbn [filter]. destruct (ident_dec (at_ident a) i) as [E|]; auto.
    cbn [flat_map]. rewrite app_nil_r. destruct D as [(KX & _)|(_ & d & s' & -> & VS & _)]. rewrite KX in J. change (ident_of_key KParentalAdvisory) with (Some RTNG) in J. congruence.
    cbn [filter]. destruct d; try discriminate; reflexivity. }
  assert (C : forall ps, kept i (covr_atom ps) = []).
  { intros [|p ps]; auto. unfold kept, covr_atom, only. cbn [filter at_ident]. destruct (ident_dec _ _); auto. cbn [flat_map at_data]. rewrite app_nil_r. generalize (p :: ps). induction l0; auto. }
  assert (P : forall j n t, (j = TRKN \/ j = DISK) -> kept i (int_pair j n t) = []).
  { intros j n t J. unfold kept, only. assert (X : forall d, lenN ([0; 0] ++ be_enc 2 (or0 n) ++ be_enc 2 (or0 t) ++ [0; 0]) = 8 -> (d = [mkAtom j [AUnknown DT_RESERVED ([0; 0] ++ be_enc 2 (or0 n) ++ be_enc 2 (or0 t) ++ [0; 0])]]) ->
      flat_map (fun a => filter (left_over i) (at_data a)) (filter (fun a => if ident_dec (at_ident a) i then true else false) d) = []).
    { intros d L ->. cbn [filter at_ident]. destruct (ident_dec j i) as [<-|]; auto. cbn [flat_map at_data filter left_over]. rewrite L. destruct J as [-> | ->]; reflexivity. }
    unfold int_pair. destruct n, t; try reflexivity; (apply X; [reflexivity|reflexivity]). }
  rewrite I, C, !P by auto. rewrite !app_nil_r. exact R.
Qed.
Print Assumptions C133_values.
Lemma left_pair : forall i nk tk d, numbered i nk tk -> 6 <= lenN d -> atom_left (mkAtom i [AUnknown DT_RESERVED d]) = None.
Proof.
  intros i nk tk d H L. unfold atom_left. cbn [at_ident at_data]. rewrite (numbered_key _ _ _ H). destruct (key_dec _ _); [discriminate|]. cbn [filter left_over]. replace (6 <=? lenN d) with true by lia.
  destruct H as [(-> & _)|(-> & _)]; reflexivity.
Qed.
Lemma only_none : forall i l, Forall (fun a => at_ident a <> i) l -> only i l = [].
Proof. induction l; intro F; auto. apply Forall_cons_iff in F as [F1 F2]. unfold only. cbn [filter]. destruct (ident_dec _ _); [congruence|]. now apply IHl. Qed.
Lemma be2_bound : forall d n, bytes_ok d -> be2 d n < 2 ^ 16.
Proof.
  intros d n B. unfold be2. assert (K : forall m, byte_ok (byte_at d m)). { intro m. unfold byte_at. destruct (Nat.lt_ge_cases (N.to_nat m) (length d)). rewrite Forall_forall in B. apply B, nth_In; auto. rewrite nth_overflow by auto. unfold byte_ok. lia. }
  match goal with |- be_dec ?v < _ => pose proof (be_dec_bound v) as X; change (256 ^ lenN v) with (2 ^ 16) in X end. apply X. repeat constructor; apply K.
Qed.
Lemma last_positive : forall n, n < 2 ^ 16 -> last_number (positive n) = if 0 <? n then Some n else None.
Proof. intros n H. unfold positive, last_number. destruct (0 <? n); auto. cbn [TagModel.filter_map]. rewrite parse_uint_to_dec. reflexivity. unfold U16_MAX. change (2 ^ 16) with 65536 in H. lia. Qed.
Theorem C133_numbers : forall i nk tk x d y, numbered i nk tk -> 6 <= lenN d -> bytes_ok d -> Forall (fun a => key_of_ident (at_ident a) <> Some tk) (x ++ y) ->
  only i (again (x ++ mkAtom i [AUnknown DT_RESERVED d] :: y)) =
    if (be2 d 2 =? 0) && (be2 d 4 =? 0) then [] else [mkAtom i [AUnknown 0 (pair_bytes (be2 d 2) (be2 d 4))]].
Proof.
  intros i nk tk x d y H L B F. rewrite again_eq, (C132_numbers i nk tk) by auto. destruct (one_pair i nk tk x d y H L F) as [A1 A2]. rewrite A1, A2. rewrite !last_positive by (apply be2_bound; auto).
  assert (NR : i <> RTNG) by (destruct H as [(-> & _)|(-> & _)]; discriminate). destruct (only_rest i (x ++ mkAtom i [AUnknown DT_RESERVED d] :: y) NR) as [P _].
  assert (O : TagModel.filter_map atom_left (only i (x ++ mkAtom i [AUnknown DT_RESERVED d] :: y)) = []).
  { rewrite only_app. apply Forall_app in F as [FX FY]. pose proof (numbered_key i nk tk H) as NK. rewrite (only_none i x). 2:{ eapply Forall_impl; [|exact FX]. cbn. intros a X E. congruence. }
    unfold only. cbn [filter at_ident app]. destruct (ident_dec i i); [|congruence]. fold (only i y). rewrite (only_none i y). 2:{ eapply Forall_impl; [|exact FY]. cbn. intros a X E. congruence. }
    cbn [TagModel.filter_map]. now rewrite (left_pair i nk tk). }
  rewrite O in P. apply Permutation_sym, Permutation_nil in P. rewrite P. cbn [app]. unfold pair_of.
  destruct (be2 d 2 =? 0) eqn:Z1, (be2 d 4 =? 0) eqn:Z2; destruct (0 <? be2 d 2) eqn:Y1, (0 <? be2 d 4) eqn:Y2; try lia; cbn [andb or0]; auto.
  apply N.eqb_eq in Z1. now rewrite Z1. apply N.eqb_eq in Z2. now rewrite Z2.
Qed.
Print Assumptions C133_numbers.
Lemma left_rating : forall a, at_ident a = RTNG -> match atom_left a with Some b => TagModel.filter_map data_rating (at_data b) = TagModel.filter_map data_rating (at_data a) | None => TagModel.filter_map data_rating (at_data a) = [] end.
Proof.
  intros a E. assert (X : TagModel.filter_map data_rating (filter (left_over RTNG) (at_data a)) = TagModel.filter_map data_rating (at_data a)).
  { induction (at_data a) as [|d ds IH]; auto. cbn [filter TagModel.filter_map]. destruct (left_over RTNG d) eqn:LO. cbn [TagModel.filter_map]. now rewrite IH.
    rewrite IH. destruct d; try discriminate; try reflexivity. cbn [left_over] in LO. destruct (ident_dec RTNG TRKN); [discriminate|]. destruct (ident_dec RTNG DISK); [discriminate|]. rewrite andb_false_r in LO. discriminate. }
  unfold atom_left. rewrite E. change (key_of_ident RTNG) with (Some KParentalAdvisory). destruct (key_dec _ _); [discriminate|]. destruct (filter _ _) eqn:F; cbn [at_data]; rewrite <- X; auto.
Qed.
Theorem C133_rating : forall l r, (length (only RTNG l) <= 1)%nat -> advisory_rating l = Some r ->
  only RTNG (again l) = [rating_atom r] /\ advisory_rating (again l) = Some r.
Proof.
  intros l r L A. assert (A0 : advisory_rating (TagModel.filter_map atom_left l) = Some r).
  { unfold advisory_rating in *. rewrite get_only in *. rewrite only_left. destruct (only RTNG l) as [|a [|]] eqn:O; cbn [length] in L; try lia; [discriminate|]. cbn [hd_error] in A. cbn [TagModel.filter_map].
    assert (E : at_ident a = RTNG). { assert (I : In a (only RTNG l)) by (rewrite O; now left). unfold only in I. apply filter_In in I as [_ I]. destruct (ident_dec _ _); auto. discriminate. }
    pose proof (left_rating a E) as X. destruct (atom_left a) as [b|]; cbn [hd_error]. now rewrite X. rewrite X in A. discriminate. }
  assert (O : only RTNG (again l) = [rating_atom r]).
  { rewrite again_eq, C132_rating. pose proof (split_tag_spec l) as (_ & _ & _ & _ & _ & D). rewrite A0 in D. destruct D as [-> ->]. rewrite only_removed. destruct r; reflexivity. }
  split; auto. unfold advisory_rating. rewrite get_only, O. destruct r; reflexivity.
Qed.
Print Assumptions C133_rating.
(** The values of one atom come back in several, the title can disappear behind what remains, a pair of zeros is lost,
    and without the option everything unknown is lost. *)
Theorem C133_one_atom_refuted : ~ (forall l i k, key_of_ident i = Some k -> plain_key k -> length (only i l) = 1%nat -> length (only i (again l)) = 1%nat).
Proof.
  intro H. specialize (H [mkAtom ARTIST [AUtf8 ($"a"); AUtf8 ($"b")]] ARTIST KTrackArtist). vm_compute in H.
  assert (X : 2%nat = 1%nat) by (apply H; [reflexivity| |reflexivity]; intros [Y|[Y|[Y|[Y|[Y|[]]]]]]; discriminate). discriminate.
Qed.
Print Assumptions C133_one_atom_refuted.
Theorem C133_title_refuted : ~ (forall l, acc_text TITLE (again l) = acc_text TITLE l).
Proof. intro H. specialize (H [mkAtom TITLE [AUtf8 ($"a"); ASigned 4]]). vm_compute in H. discriminate. Qed.
Print Assumptions C133_title_refuted.
Theorem C133_not_preserved_refuted : ~ (forall l i, key_of_ident i = None -> i <> covr_ident -> Permutation (only i (ilst_of_tag false (tag_of_ilst false l))) (only i l)).
Proof.
  intro H. specialize (H [mkAtom (Fourcc ($"hdvd")) [ABool true]] (Fourcc ($"hdvd")) eq_refl ltac:(discriminate)). vm_compute in H. apply Permutation_nil in H. discriminate.
Qed.
Print Assumptions C133_not_preserved_refuted.
Example C133_ex : again [mkAtom (Fourcc (0xA9 :: $"NAM")) [AUtf16 ($"a")]; mkAtom TRKN [AUnknown 0 [9; 9; 0; 3; 0; 7]]; mkAtom (Fourcc ($"hdvd")) [ABool true]; mkAtom RTNG [ASigned 4]] =
  [mkAtom (Fourcc ($"hdvd")) [ABool true]; mkAtom TITLE [AUtf8 ($"a")]; mkAtom RTNG [ASigned 1]; mkAtom TRKN [AUnknown 0 [0; 0; 0; 3; 0; 7; 0; 0]]].
Proof. vm_compute. reflexivity. Qed.

(** C134: a Tag converted to an Ilst and back. *)
Definition back (p : bool) (t : mtag) : mtag := tag_of_ilst p (ilst_of_tag p t).
Lemma back_strings : forall p t k, t_companion t = None -> get_strings (back p t) k = get_strings (snd (split_tag (merge_tag [] t))) k /\
  t_pictures (back p t) = t_pictures (snd (split_tag (merge_tag [] t))).
Proof.
  intros p t k C. unfold back. assert (E : ilst_of_tag p t = merge_tag [] t) by (unfold ilst_of_tag; rewrite C; destruct p; reflexivity). rewrite E. unfold tag_of_ilst.
  destruct (split_tag (merge_tag [] t)) as [rest u]. cbn [snd]. destruct (_ && _); auto.
Qed.
Theorem C134_texts : forall p (t : mtag) k, t_companion t = None -> plain_key k -> get_strings (back p t) k = landing k (t_items t).
Proof.
  intros p t k C P. destruct (back_strings p t k C) as [-> _]. pose proof (split_tag_spec (merge_tag [] t)) as (A & _). rewrite A by auto. now rewrite C132_texts.
Qed.
Print Assumptions C134_texts.
Theorem C134_pictures : forall p (t : mtag), t_companion t = None -> t_pictures (back p t) = map as_other (t_pictures t).
Proof.
  intros p t C. destruct (back_strings p t KYear C) as [_ ->]. pose proof (split_tag_spec (merge_tag [] t)) as (_ & -> & _). apply (C132_pictures [] t).
Qed.
Print Assumptions C134_pictures.
(** Which keys come back. *)
Theorem C134_keys : forall k, match map_key Mp4Ilst k with
  | None => lands k = None
  | Some _ => lands k = Some (match k with KUnsyncLyrics => KLyrics | KTrackNumber => KTrackTotal | KDiscNumber => KDiscTotal | k => k end)
  end.
Proof. intro k. destruct k; vm_compute; reflexivity. Qed.
Print Assumptions C134_keys.
Lemma items_keys : forall tk l, In tk NUMBERS -> Forall (fun a => key_of_ident (at_ident a) <> Some tk) (flat_map item_atoms l).
Proof.
  intros tk l T. apply Forall_forall. intros a I. apply in_flat_map in I as (x & _ & I). destruct (item_atoms_spec x a I) as (j & s & V & J & IA & AI & D). subst j. destruct (ident_known _ _ J) as (k2 & -> & L2). intro E. inversion E; subst k2.
  destruct D as [(KX & _)|(P & _)].
  - rewrite KX in L2. change (lands KParentalAdvisory) with (Some KParentalAdvisory) in L2. inversion L2; subst. cbn in T. destruct T as [X|[X|[X|[X|[]]]]]; discriminate.
  - apply (lands_plain _ _ P L2). now right.
Qed.
Theorem C134_numbers : forall p (t : mtag) i nk tk, t_companion t = None -> numbered i nk tk ->
  get_strings (back p t) nk = positive (or0 (last_number (get_strings t nk))) /\ get_strings (back p t) tk = positive (or0 (last_number (get_strings t tk))).
Proof.
  intros p t i nk tk C H. destruct (back_strings p t nk C) as [-> _]. destruct (back_strings p t tk C) as [-> _]. rewrite merge_eq. rewrite !last_number_fold, !pair_of_eq. cbn [app]. change (nums ?k (t_items t)) with (get_strings t k).
  assert (TN : In tk NUMBERS) by (destruct H as [(_ & _ & ->)|(_ & _ & ->)]; cbn; tauto). pose proof (items_keys tk (t_items t) TN) as F1.
  assert (F2 : Forall (fun a => key_of_ident (at_ident a) <> Some tk) (covr_atom (t_pictures t))).
  { unfold covr_atom. destruct (t_pictures t); constructor; auto. cbn [at_ident]. rewrite covr_unknown. discriminate. }
  assert (F3 : forall j a b, (j = TRKN \/ j = DISK) -> j <> i -> Forall (fun a => key_of_ident (at_ident a) <> Some tk) (pair_of j a b)).
  { intros j a b J NE. assert (X : key_of_ident j <> Some tk). { destruct H as [(-> & _ & ->)|(-> & _ & ->)], J as [-> | ->]; try congruence; vm_compute; discriminate. } unfold pair_of. destruct a, b; constructor; auto. }
  set (a := last_number (get_strings t nk)). set (b := last_number (get_strings t tk)).
  assert (G : forall x y, Forall (fun a => key_of_ident (at_ident a) <> Some tk) (x ++ y) ->
    get_strings (snd (split_tag (x ++ pair_of i a b ++ y))) nk = positive (or0 a) /\ get_strings (snd (split_tag (x ++ pair_of i a b ++ y))) tk = positive (or0 b)).
  { intros x y F. assert (BA : or0 a < 2 ^ 16) by (destruct a eqn:E; [eapply last_bound; eauto|reflexivity]). assert (BB : or0 b < 2 ^ 16) by (destruct b eqn:E; [eapply last_bound; eauto|reflexivity]).
    destruct (pair_bytes_read _ _ BA BB) as (R1 & R2 & R3). assert (CASE : (a = None /\ b = None) \/ pair_of i a b = [mkAtom i [AUnknown DT_RESERVED (pair_bytes (or0 a) (or0 b))]]) by (unfold pair_of; destruct a, b; auto).
    destruct CASE as [[-> ->]| ->].
    - cbn [pair_of app or0]. exact (no_pair i nk tk (x ++ y) H F).
    - cbn [app]. destruct (one_pair i nk tk x (pair_bytes (or0 a) (or0 b)) y H) as [X Y]; auto. rewrite R3. lia. rewrite X, Y, R1, R2. auto. }
  subst a b. destruct H as [(-> & -> & ->)|(-> & -> & ->)].
  - rewrite (app_assoc (flat_map _ _)). apply G. apply Forall_app. split. now apply Forall_app. apply F3; auto. discriminate.
  - specialize (G (flat_map item_atoms (t_items t) ++ covr_atom (t_pictures t) ++ pair_of TRKN (last_number (get_strings t KTrackNumber)) (last_number (get_strings t KTrackTotal))) []).
    rewrite !app_nil_r in G. rewrite <- !app_assoc in G. apply G. apply Forall_app. split; auto. apply Forall_app. split; auto. apply F3; auto. discriminate.
Qed.
Print Assumptions C134_numbers.
Lemma texts_rating_atoms : forall k rs, texts k (map rating_atom rs) = [].
Proof. intros k rs. induction rs as [|r rs IH]; auto. unfold texts in *. cbn [map flat_map]. rewrite IH. destruct (key_dec _ _); reflexivity. Qed.
Lemma pa_texts : forall (t : mtag), texts KParentalAdvisory (merge_tag [] t) = [].
Proof.
  intro t. rewrite merge_eq, !texts_app, covr_texts, !pair_texts. cbn [texts flat_map app]. rewrite !app_nil_r. induction (t_items t) as [|x l IH]; auto. cbn [flat_map]. rewrite texts_app, IH, app_nil_r.
  destruct (item_atoms x) as [|a r] eqn:IA; auto. destruct (item_atoms_spec x a) as (j & s & V & J & IA2 & AI & D). { rewrite IA. now left. } rewrite IA in IA2. inversion IA2; subst r j. unfold texts. cbn [flat_map]. rewrite app_nil_r.
  destruct (ident_known _ _ J) as (k2 & K2 & L2). rewrite K2. destruct (key_dec _ _) as [E|]; auto. inversion E; subst. destruct D as [(_ & n & r & _ & _ & ->)|(P & _)]; auto. exfalso. apply (lands_plain _ _ P L2). now left.
Qed.
Theorem C134_rating : forall p (t : mtag), t_companion t = None ->
  get_strings (back p t) KParentalAdvisory = match TagModel.filter_map accepted (get_strings t KParentalAdvisory) with r :: _ => [to_dec (rating_u8 r)] | [] => [] end.
Proof.
  intros p t C. destruct (back_strings p t KParentalAdvisory C) as [-> _]. pose proof (split_tag_spec (merge_tag [] t)) as (_ & _ & _ & _ & _ & D).
  assert (O : only RTNG (TagModel.filter_map atom_left (merge_tag [] t)) = map rating_atom (TagModel.filter_map accepted (get_strings t KParentalAdvisory))).
  { rewrite only_left, C132_rating. cbn [only filter app]. generalize (TagModel.filter_map accepted (get_strings t KParentalAdvisory)). induction l as [|r l IH]; auto. cbn [map TagModel.filter_map]. rewrite IH. destruct r; reflexivity. }
  unfold advisory_rating in D at 1. rewrite get_only, O in D. destruct (TagModel.filter_map accepted (get_strings t KParentalAdvisory)) as [|r rs]; cbn [map hd_error] in D.
  - destruct D as [_ ->]. apply pa_texts.
  - assert (Q : hd_error (TagModel.filter_map data_rating (at_data (rating_atom r))) = Some r) by (destruct r; reflexivity).
    rewrite Q in D. exact (proj2 D).
Qed.
Print Assumptions C134_rating.
Theorem C134_zero_refuted : ~ (forall (t : mtag) n, t_companion t = None -> get_strings t KTrackNumber = [to_dec n] -> n < 2 ^ 16 -> get_strings (back true t) KTrackNumber = [to_dec n]).
Proof. intro H. specialize (H (mkTag Mp4Ilst [] [new_item KTrackNumber (VText ($"0"))] None) 0 eq_refl eq_refl eq_refl). vm_compute in H. discriminate. Qed.
Print Assumptions C134_zero_refuted.
Example C134_ex : get_strings (back false (mkTag Mp4Ilst [] [new_item KUnsyncLyrics (VText ($"a")); new_item KTrackNumber (VText ($"07")); new_item KLyrics (VText ($"b")); new_item KYear (VText ($"1999"));
    new_item KParentalAdvisory (VText ($"9")); new_item KParentalAdvisory (VText ($"4"))] None)) KLyrics = [$"a"; $"b"] /\
  t_items (back true (mkTag Mp4Ilst [] [new_item KTrackNumber (VText ($"07")); new_item KYear (VText ($"1999")); new_item KParentalAdvisory (VText ($"4"))] None)) =
    [new_item KTrackNumber (VText ($"7")); new_item KParentalAdvisory (VText ($"1"))].
Proof. vm_compute. auto. Qed.
