(** Conversions between Ilst and Tag: C131 - C134. *)
From Coq Require Import Permutation.
From Verif Require Import BaseLemmas StrLemmas ItemKeyThm TagThm IlstModel IlstThm IlstProof.

(** C131: what a Tag made from an Ilst contains, and what remains. *)
Lemma split_tag_spec : forall l, let rest0 := TagModel.filter_map atom_left l in
  (forall k, ~ In k (KParentalAdvisory :: NUMBERS) -> get_strings (snd (split_tag l)) k = texts k l) /\
  t_pictures (snd (split_tag l)) = covers l /\ t_type (snd (split_tag l)) = Mp4Ilst /\ t_companion (snd (split_tag l)) = None /\
  Forall item_good (t_items (snd (split_tag l))) /\
  match advisory_rating rest0 with
  | None => fst (split_tag l) = rest0 /\ get_strings (snd (split_tag l)) KParentalAdvisory = texts KParentalAdvisory l
  | Some r => fst (split_tag l) = removed RTNG rest0 /\ get_strings (snd (split_tag l)) KParentalAdvisory = [to_dec (rating_u8 r)]
  end.
Proof.
  intros l rest0. subst rest0. unfold split_tag. destruct (split_atoms_spec l (tag_new Mp4Ilst)) as (A & B & C & D & E). pose proof (good_atoms l (tag_new Mp4Ilst) (Forall_nil _)) as G.
  destruct (split_atoms l (tag_new Mp4Ilst)) as [rest t]. cbn [fst snd] in *. rewrite <- A. cbn [tag_new t_type t_pictures t_companion app] in *.
  assert (NK : forall k, ~ In k (KParentalAdvisory :: NUMBERS) -> ~ In k NUMBERS /\ KParentalAdvisory <> k) by (intros k H; split; [intro; apply H; now right|intro; apply H; now left]).
  destruct (advisory_rating rest) as [r|]; cbn [fst snd].
  - rewrite insert_pics, insert_type, insert_comp. repeat split; auto.
    + intros k H. destruct (NK k H). rewrite gs_insert_ne by auto. now rewrite B.
    + apply good_insert; auto. now left.
    + apply gs_insert_eq. rewrite D. reflexivity.
  - repeat split; auto.
    + intros k H. destruct (NK k H). now rewrite B.
    + apply B. cbn. intros [X|[X|[X|[X|[]]]]]; discriminate.
Qed.
Definition plain_item (x : tag_item) : Prop := exists k s, x = mkItem ($"XXX") [] k (VText s).
Theorem C131_split : forall l, let rest0 := TagModel.filter_map atom_left l in let (rest, t) := split_tag l in
  (forall k, ~ In k (KParentalAdvisory :: NUMBERS) -> get_strings t k = texts k l) /\ t_pictures t = covers l /\ Forall plain_item (t_items t) /\
  (forall r, advisory_rating rest0 = Some r -> Permutation rest (others RTNG rest0) /\ get_strings t KParentalAdvisory = [to_dec (rating_u8 r)]) /\
  (advisory_rating rest0 = None -> rest = rest0 /\ get_strings t KParentalAdvisory = texts KParentalAdvisory l).
Proof.
  intros l rest0. pose proof (split_tag_spec l) as (A & B & _ & _ & C & D). fold rest0 in D. destruct (split_tag l) as [rest t]. cbn [fst snd] in *. split; auto. split; auto. split; [|split].
  - eapply Forall_impl; [|exact C]. intros x (k & s & -> & _). exists k, s. reflexivity.
  - intros r E. rewrite E in D. destruct D as [-> ->]. split; auto. apply removed_perm.
  - intros E. rewrite E in D. auto.
Qed.
Print Assumptions C131_split.

(** *** numbers *)
Lemma gs_add : forall (t : mtag) k n, t_type t = Mp4Ilst -> In k NUMBERS -> get_strings (add_number k n t) k = if 0 <? n then [to_dec n] else get_strings t k.
Proof. intros t k n T K. unfold add_number. destruct (0 <? n); auto. apply gs_insert_eq. rewrite T. apply ilst_supports. now right. Qed.
Definition numbered (i : ident) (nk tk : item_key) : Prop := (i = TRKN /\ nk = KTrackNumber /\ tk = KTrackTotal) \/ (i = DISK /\ nk = KDiscNumber /\ tk = KDiscTotal).
Lemma from_not_nk : forall i nk tk j, numbered i nk tk -> key_of_ident j <> Some nk.
Proof.
  intros i nk tk j H E. unfold key_of_ident in E. apply (from_key_row (fun k => negb (ik_eqb k KTrackNumber || ik_eqb k KDiscNumber))) in E; [|vm_compute; reflexivity].
  destruct H as [(_ & -> & _)|(_ & -> & _)]; discriminate.
Qed.
Lemma numbered_key : forall i nk tk, numbered i nk tk -> key_of_ident i = Some tk.
Proof. intros i nk tk [(-> & -> & ->)|(-> & -> & ->)]; vm_compute; reflexivity. Qed.
Lemma value_untouched : forall key j v t k, (key <> Some k) -> (forall a b, pair_keys j = Some (a, b) -> a <> k /\ b <> k) -> get_strings (snd (split_value key j v t)) k = get_strings t k.
Proof.
  intros key j v t k K P. destruct v as [s|s|p|z|n|b|c d]; cbn [split_value snd]; auto; try (destruct key as [k'|]; auto; rewrite gs_push; destruct (key_dec _ _); [congruence|]; now rewrite app_nil_r).
  - destruct key; auto.
  - destruct (_ && _); auto. destruct (pair_keys j) as [[a b]|]; auto. destruct (P a b eq_refl). cbn [snd]. now rewrite !add_number_ne.
Qed.
Lemma values_untouched : forall vs key j t k, (key <> Some k) -> (forall a b, pair_keys j = Some (a, b) -> a <> k /\ b <> k) -> get_strings (snd (split_values key j vs t)) k = get_strings t k.
Proof.
  induction vs as [|v vs IH]; intros key j t k K P; cbn [split_values]; auto. pose proof (value_untouched key j v t k K P) as X. destruct (split_value key j v t) as [b t1]. cbn [snd] in X.
  specialize (IH key j t1 k K P). destruct (split_values key j vs t1). cbn [snd] in *. congruence.
Qed.
Lemma pair_untouched : forall i nk tk j a b, numbered i nk tk -> key_of_ident j <> Some tk -> pair_keys j = Some (a, b) -> a <> nk /\ b <> nk /\ a <> tk /\ b <> tk.
Proof.
  intros i nk tk j a b H K P. unfold pair_keys in P. rewrite !ident_eqb_dec in P. destruct (ident_dec j TRKN) as [->|]; [|destruct (ident_dec j DISK) as [->|]; [|discriminate]]; inversion P; subst;
  destruct H as [(-> & -> & ->)|(-> & -> & ->)]; repeat split; try discriminate; exfalso; apply K; vm_compute; reflexivity.
Qed.
Lemma atom_untouched : forall i nk tk a t, numbered i nk tk -> key_of_ident (at_ident a) <> Some tk ->
  get_strings (snd (split_atom a t)) nk = get_strings t nk /\ get_strings (snd (split_atom a t)) tk = get_strings t tk.
Proof.
  intros i nk tk [j vs] t H K. unfold split_atom. cbn [at_ident at_data] in *. pose proof (from_not_nk i nk tk j H) as NN.
  assert (X : forall key, key <> Some nk -> key <> Some tk -> get_strings (snd (split_values key j vs t)) nk = get_strings t nk /\ get_strings (snd (split_values key j vs t)) tk = get_strings t tk).
  { intros key K1 K2. split; apply values_untouched; auto; intros a b P; destruct (pair_untouched i nk tk j a b H K P); tauto. }
  destruct (key_of_ident j) as [k|] eqn:E.
  - specialize (X (Some k) NN K). destruct (split_values _ _ _ _). exact X.
  - destruct (ident_eqb j covr_ident); auto. specialize (X None ltac:(discriminate) ltac:(discriminate)). destruct (split_values _ _ _ _). exact X.
Qed.
Lemma atoms_untouched : forall i nk tk l t, numbered i nk tk -> Forall (fun a => key_of_ident (at_ident a) <> Some tk) l ->
  get_strings (snd (split_atoms l t)) nk = get_strings t nk /\ get_strings (snd (split_atoms l t)) tk = get_strings t tk.
Proof.
  intros i nk tk l t H. revert t. induction l as [|a l IH]; intros t F; cbn [split_atoms]; auto. apply Forall_cons_iff in F as [F1 F2].
  destruct (atom_untouched i nk tk a t H F1) as [A B]. destruct (split_atom a t) as [o t1]. cbn [snd] in *. destruct (IH t1 F2) as [C D]. destruct (split_atoms l t1). cbn [snd] in *. split; congruence.
Qed.
Lemma split_atoms_app : forall x y t, snd (split_atoms (x ++ y) t) = snd (split_atoms y (snd (split_atoms x t))).
Proof.
  induction x as [|a x IH]; intros y t; cbn [app split_atoms]; auto. destruct (split_atom a t) as [o t1]. specialize (IH y t1). destruct (split_atoms (x ++ y) t1), (split_atoms x t1). cbn [snd] in *. congruence.
Qed.
Definition be2 (d : bytes) (n : N) : N := be_dec [byte_at d n; byte_at d (n + 1)].
Definition positive (n : N) : list str := if 0 <? n then [to_dec n] else [].
Lemma one_pair : forall i nk tk x d y, numbered i nk tk -> 6 <= lenN d -> Forall (fun a => key_of_ident (at_ident a) <> Some tk) (x ++ y) ->
  let t := snd (split_tag (x ++ mkAtom i [AUnknown DT_RESERVED d] :: y)) in get_strings t nk = positive (be2 d 2) /\ get_strings t tk = positive (be2 d 4).
Proof.
  intros i nk tk x d y H L F t. apply Forall_app in F as [FX FY].
  assert (G : let t0 := snd (split_atoms (x ++ mkAtom i [AUnknown DT_RESERVED d] :: y) (tag_new Mp4Ilst)) in get_strings t0 nk = positive (be2 d 2) /\ get_strings t0 tk = positive (be2 d 4)).
  { intro t0. subst t0. rewrite split_atoms_app. destruct (atoms_untouched i nk tk x (tag_new Mp4Ilst) H FX) as [A B]. destruct (split_atoms_spec x (tag_new Mp4Ilst)) as (_ & _ & _ & TY & _).
    set (u := snd (split_atoms x (tag_new Mp4Ilst))) in *. cbn [split_atoms].
    assert (PK : pair_keys i = Some (nk, tk)) by (destruct H as [(-> & -> & ->)|(-> & -> & ->)]; vm_compute; reflexivity).
    assert (E : split_atom (mkAtom i [AUnknown DT_RESERVED d]) u = (None, add_number tk (be2 d 4) (add_number nk (be2 d 2) u))).
    { unfold split_atom. cbn [at_ident at_data]. rewrite (numbered_key i nk tk H). cbn [split_values split_value]. rewrite PK. replace (6 <=? lenN d) with true by lia. reflexivity. }
    rewrite E. set (u2 := add_number tk (be2 d 4) (add_number nk (be2 d 2) u)). destruct (atoms_untouched i nk tk y u2 H FY) as [C D]. destruct (split_atoms y u2). cbn [snd] in *. rewrite C, D. subst u2.
    assert (NE : nk <> tk /\ In nk NUMBERS /\ In tk NUMBERS) by (destruct H as [(-> & -> & ->)|(-> & -> & ->)]; cbn; repeat split; auto; discriminate). destruct NE as (NE & IN & IT).
    cbn [tag_new t_type] in TY. split.
    - rewrite add_number_ne by congruence. rewrite gs_add by auto. rewrite A. reflexivity.
    - rewrite gs_add; auto. 2:{ destruct (add_number_pics u nk (be2 d 2)) as (_ & -> & _). exact TY. } rewrite add_number_ne by auto. rewrite B. reflexivity. }
  subst t. unfold split_tag. destruct (split_atoms _ _) as [rest t]. cbn [snd] in G. destruct (advisory_rating rest); cbn [snd]; auto.
  assert (KPA : KParentalAdvisory <> nk /\ KParentalAdvisory <> tk) by (destruct H as [(-> & -> & ->)|(-> & -> & ->)]; split; discriminate). rewrite !gs_insert_ne by tauto. exact G.
Qed.
Lemma no_pair : forall i nk tk l, numbered i nk tk -> Forall (fun a => key_of_ident (at_ident a) <> Some tk) l -> get_strings (snd (split_tag l)) nk = [] /\ get_strings (snd (split_tag l)) tk = [].
Proof.
  intros i nk tk l H F. destruct (atoms_untouched i nk tk l (tag_new Mp4Ilst) H F) as [A B]. unfold split_tag. destruct (split_atoms l _) as [rest t]. cbn [snd] in *.
  assert (KPA : KParentalAdvisory <> nk /\ KParentalAdvisory <> tk) by (destruct H as [(-> & -> & ->)|(-> & -> & ->)]; split; discriminate).
  destruct (advisory_rating rest); cbn [snd]; rewrite ?gs_insert_ne by tauto; rewrite A, B; split; reflexivity.
Qed.
(** The numbers: the first of the pair and its total, when they are not 0. *)
Theorem C131_numbers : forall i nk tk x d y, numbered i nk tk -> 6 <= lenN d -> Forall (fun a => key_of_ident (at_ident a) <> Some tk) (x ++ y) ->
  let t := snd (split_tag (x ++ mkAtom i [AUnknown 0 d] :: y)) in get_strings t nk = positive (be2 d 2) /\ get_strings t tk = positive (be2 d 4).
Proof. exact one_pair. Qed.
Print Assumptions C131_numbers.
(** Pictures outside of [covr] and texts in it are dropped: they are neither in the tag nor in what remains. *)
Theorem C131_picture_dropped_refuted : ~ (forall l p a, In a l -> In (APic p) (at_data a) ->
  let (rest, t) := split_tag l in In p (t_pictures t) \/ exists b, In b rest /\ In (APic p) (at_data b)).
Proof. intro H. specialize (H [mkAtom TITLE [APic front]] front (mkAtom TITLE [APic front]) (or_introl eq_refl) (or_introl eq_refl)). vm_compute in H. destruct H as [[]|(b & [] & _)]. Qed.
Print Assumptions C131_picture_dropped_refuted.
Theorem C131_text_dropped_refuted : ~ (forall l s a, In a l -> In (AUtf8 s) (at_data a) ->
  let (rest, t) := split_tag l in (exists x, In x (t_items t) /\ it_value x = VText s) \/ exists b, In b rest /\ In (AUtf8 s) (at_data b)).
Proof. intro H. specialize (H [mkAtom covr_ident [AUtf8 ($"t")]] ($"t") (mkAtom covr_ident [AUtf8 ($"t")]) (or_introl eq_refl) (or_introl eq_refl)). vm_compute in H. destruct H as [(x & [] & _)|(b & [] & _)]. Qed.
Print Assumptions C131_text_dropped_refuted.
(** A track number stored as text becomes the number of tracks. *)
Theorem C131_text_number_refuted : ~ (forall n, 0 < n < 2 ^ 16 -> get_strings (snd (split_tag [mkAtom TRKN [AUtf8 (to_dec n)]])) KTrackNumber = [to_dec n]).
Proof. intro H. specialize (H 5 ltac:(lia)). vm_compute in H. discriminate. Qed.
Print Assumptions C131_text_number_refuted.
Example C131_ex : split_tag [mkAtom TITLE [AUtf8 ($"a"); ASigned 4; AUtf16 ($"b")]; mkAtom TRKN [AUnknown 0 [0; 0; 0; 3; 0; 0; 0; 0]]; mkAtom (Freeform ($"m") ($"n")) [AUtf8 ($"x")];
    mkAtom RTNG [ASigned 4]; mkAtom (Fourcc ($"cpil")) [ABool true]; mkAtom covr_ident [APic front]] =
  ([mkAtom (Freeform ($"m") ($"n")) [AUtf8 ($"x")]; mkAtom TITLE [ASigned 4]],
   mkTag Mp4Ilst [front] [new_item KTrackTitle (VText ($"a")); new_item KTrackTitle (VText ($"b")); new_item KTrackNumber (VText ($"3"));
     new_item KFlagCompilation (VText ($"1")); new_item KParentalAdvisory (VText ($"1"))] None).
Proof. vm_compute. reflexivity. Qed.

(** ** What an Ilst made from a Tag contains *)
Definition plain_key (k : item_key) : Prop := ~ In k (KParentalAdvisory :: NUMBERS).
Lemma plain_dec : forall k, {plain_key k} + {In k (KParentalAdvisory :: NUMBERS)}.
Proof. intro k. destruct (in_dec ik_dec k (KParentalAdvisory :: NUMBERS)); auto. Qed.
Definition flag_key (k : item_key) : bool := match k with KFlagCompilation | KFlagPodcast => true | _ => false end.
Lemma stored_flag : forall k s, stored k s = if flag_key k then stored KFlagPodcast s else Some s.
Proof. intros k s. destruct k; reflexivity. Qed.
Lemma lands_store : forall k' k, lands k' = Some k -> forall s, stored k' s = stored k s.
Proof.
  intros k' k L s. assert (A : forallb (fun k' => match lands k' with Some k => Bool.eqb (flag_key k') (flag_key k) | None => true end) all_keys = true) by (vm_compute; reflexivity).
  pose proof (for_keys _ A k') as B. cbv beta in B. rewrite L in B. apply Bool.eqb_prop in B. rewrite (stored_flag k'), (stored_flag k). now rewrite B.
Qed.
Lemma lands_special : forall k', In k' (KParentalAdvisory :: NUMBERS) -> exists k, lands k' = Some k /\ In k (KParentalAdvisory :: NUMBERS).
Proof. intros k' [<-|[<-|[<-|[<-|[<-|[]]]]]]; vm_compute; eexists; split; eauto 10. Qed.
Lemma lands_plain : forall k' k, plain_key k' -> lands k' = Some k -> plain_key k.
Proof.
  intros k' k P L S. apply P. assert (A : forallb (fun k' => match lands k' with Some k => negb (is_special k) || is_special k' | None => true end) all_keys = true) by (vm_compute; reflexivity).
  pose proof (for_keys _ A k') as B. cbv beta in B. rewrite L in B. assert (S' : is_special k = true). { unfold is_special. apply existsb_exists. exists k. split; auto. apply ik_eqb_refl. }
  rewrite S' in B. cbn [negb orb] in B. unfold is_special in B. apply existsb_exists in B as (x & I & E). apply ik_eqb_eq in E. now subst.
Qed.
Lemma ident_known : forall k i, ident_of_key k = Some i -> exists k', key_of_ident i = Some k' /\ lands k = Some k'.
Proof.
  intros k i E. assert (A : forallb (fun k => match ident_of_key k with Some i => match key_of_ident i with Some _ => true | None => false end | None => true end) all_keys = true) by (vm_compute; reflexivity).
  pose proof (for_keys _ A k) as B. cbv beta in B. rewrite E in B. unfold lands. rewrite E. destruct (key_of_ident i); [eauto|discriminate].
Qed.
Lemma item_texts : forall x k, plain_key k -> texts k (item_atoms x) = landing k [x].
Proof.
  intros x k P. unfold landing. cbn [TagModel.filter_map]. destruct (item_atoms x) as [|a r] eqn:IA.
  - cbn [texts flat_map]. destruct (it_value x) as [s| |] eqn:V; auto. destruct (key_dec (lands (it_key x)) (Some k)) as [L|]; auto.
    destruct (stored k s) as [s'|] eqn:ST; auto. exfalso. rewrite <- (lands_store _ _ L) in ST.
    assert (PX : plain_key (it_key x)). { intro S. destruct (lands_special _ S) as (k2 & L2 & S2). rewrite L in L2. inversion L2; subst. now apply P. }
    unfold lands in L. unfold item_atoms, merge_item in IA. destruct (ident_of_key (it_key x)) as [i|]; [|discriminate]. rewrite V in IA.
    destruct (it_key x); try discriminate; try (apply PX; cbn; tauto); cbn [merge_text snd stored] in IA, ST; unfold ApeModel.flag_item in IA;
      (destruct (_ || _); [discriminate|destruct (_ || _); discriminate]).
  - destruct (item_atoms_spec x a) as (i & s & V & I & IA2 & AI & D). { rewrite IA. now left. } rewrite IA in IA2. inversion IA2; subst r. rewrite V. destruct (ident_known _ _ I) as (k2 & K2 & L2).
    unfold texts. cbn [flat_map]. rewrite AI, K2, L2, app_nil_r. destruct (key_dec (Some k2) (Some k)) as [E|]; auto. inversion E; subst k2. destruct D as [(KX & _)|(PX & d & s' & AD & VS & ST)].
    + exfalso. apply P. destruct (lands_special (it_key x)) as (k3 & L3 & S3). left; auto. rewrite L2 in L3. inversion L3. now subst.
    + rewrite AD. cbn [TagModel.filter_map]. rewrite VS, <- (lands_store _ _ L2), ST. reflexivity.
Qed.
Lemma items_texts : forall k l, plain_key k -> texts k (flat_map item_atoms l) = landing k l.
Proof.
  intros k l P. induction l as [|x l IH]; auto. cbn [flat_map]. rewrite texts_app, IH, item_texts by auto. unfold landing. rewrite <- (fm_app _ _ _ [x] l). reflexivity.
Qed.
Lemma pair_texts : forall k i a b, texts k (int_pair i a b) = [].
Proof. intros. unfold int_pair, texts. destruct a, b; auto; cbn [flat_map at_ident at_data TagModel.filter_map value_str]; destruct (key_dec _ _); reflexivity. Qed.
Lemma covr_texts : forall k ps, texts k (covr_atom ps) = [].
Proof. intros. unfold covr_atom, texts. destruct ps; auto. Qed.
Theorem C132_texts : forall rest (t : mtag) k, plain_key k -> texts k (merge_tag rest t) = texts k rest ++ landing k (t_items t).
Proof. intros. rewrite merge_eq, !texts_app, items_texts, covr_texts, !pair_texts by auto. now rewrite !app_nil_r. Qed.
Print Assumptions C132_texts.
Lemma item_only : forall i x, (forall k, ident_of_key k <> Some i) -> only i (item_atoms x) = [].
Proof.
  intros i x N. destruct (item_atoms x) as [|a r] eqn:IA; auto. destruct (item_atoms_spec x a) as (j & s & V & I & IA2 & AI & D). { rewrite IA. now left. }
  rewrite IA in IA2. inversion IA2; subst. unfold only. cbn [filter]. destruct (ident_dec (at_ident a) i) as [E|]; auto. exfalso. apply (N (it_key x)). congruence.
Qed.
Lemma items_only : forall i l, (forall k, ident_of_key k <> Some i) -> only i (flat_map item_atoms l) = [].
Proof. induction l; intros; auto. cbn [flat_map]. rewrite only_app, item_only, IHl; auto. Qed.
Lemma covr_no_key : forall k, ident_of_key k <> Some covr_ident.
Proof. intros k E. destruct (ident_known _ _ E) as (k' & K & _). rewrite covr_unknown in K. discriminate. Qed.
Lemma only_covr_atom : forall ps, only covr_ident (covr_atom ps) = covr_atom ps.
Proof. intros. unfold covr_atom. destruct ps; auto. Qed.
Lemma only_pair_ne : forall i j a b, i <> j -> only i (int_pair j a b) = [].
Proof. intros. unfold int_pair, only. destruct a, b; auto; cbn [filter at_ident]; destruct (ident_dec j i); congruence. Qed.
Lemma pics_covr : forall ps, all_pictures (covr_atom ps) = map as_other ps.
Proof.
  intros. unfold covr_atom, all_pictures. destruct ps as [|p ps]; auto. cbn [flat_map at_data]. rewrite app_nil_r. generalize (p :: ps). induction l; auto. cbn [map TagModel.filter_map data_pictures pic_of].
  unfold data_pictures in *. cbn [TagModel.filter_map pic_of]. now rewrite IHl.
Qed.
Theorem C132_pictures : forall rest (t : mtag), covers (merge_tag rest t) = covers rest ++ map as_other (t_pictures t).
Proof.
  intros. unfold covers. rewrite merge_eq, !only_app, items_only, only_covr_atom, !only_pair_ne by (apply covr_no_key || discriminate). rewrite !app_nil_r. cbn [app]. now rewrite all_pictures_app, pics_covr.
Qed.
Print Assumptions C132_pictures.
(** The numbers: the last item that is a number up to 65535. *)
Definition last_number (ss : list str) : option N := hd_error (rev (TagModel.filter_map (parse_uint U16_MAX) ss)).
Lemma last_number_fold : forall ss, fold_left uint_or ss None = last_number ss.
Proof.
  intro ss. assert (G : forall ss o, fold_left uint_or ss o = match hd_error (rev (TagModel.filter_map (parse_uint U16_MAX) ss)) with Some n => Some n | None => o end).
  { clear. induction ss as [|s ss IH]; intro o; auto. cbn [fold_left TagModel.filter_map]. rewrite IH. unfold uint_or. destruct (parse_uint U16_MAX s) as [n|]; auto.
    cbn [rev]. destruct (rev (TagModel.filter_map (parse_uint U16_MAX) ss)); reflexivity. }
  rewrite G. unfold last_number. destruct (hd_error _); reflexivity.
Qed.
Lemma last_bound : forall ss n, last_number ss = Some n -> n < 2 ^ 16.
Proof.
  intros ss n H. unfold last_number in H. assert (I : In n (TagModel.filter_map (parse_uint U16_MAX) ss)). { apply in_rev. destruct (rev _); [discriminate|]. inversion H. now left. }
  clear H. induction ss as [|s ss IH]; [destruct I|]. cbn [TagModel.filter_map] in I. destruct (parse_uint U16_MAX s) as [m|] eqn:P; auto. destruct I as [<-|I]; auto.
  apply parse_uint_bound in P. unfold U16_MAX in P. change (2 ^ 16) with 65536. lia.
Qed.
Lemma item_only_num : forall i x, (forall k, ident_of_key k = Some i -> In k NUMBERS) -> only i (item_atoms x) = [].
Proof.
  intros i x N0. destruct (item_atoms x) as [|a r] eqn:IA; auto. destruct (item_atoms_spec x a) as (j & s & V & I & IA2 & AI & D). { rewrite IA. now left. }
  rewrite IA in IA2. inversion IA2; subst. unfold only. cbn [filter]. destruct (ident_dec (at_ident a) i) as [E|]; auto. exfalso. rewrite <- E in N0. specialize (N0 _ I).
  destruct D as [(KX & _)|(P & _)]; [|apply P; now right]. rewrite KX in N0. cbn in N0. destruct N0 as [X|[X|[X|[X|[]]]]]; discriminate.
Qed.
Lemma items_only_num : forall i l, (forall k, ident_of_key k = Some i -> In k NUMBERS) -> only i (flat_map item_atoms l) = [].
Proof. induction l; intros; auto. cbn [flat_map]. rewrite only_app, item_only_num, IHl; auto. Qed.
Lemma number_keys : forall i nk tk k, numbered i nk tk -> ident_of_key k = Some i -> In k NUMBERS.
Proof.
  intros i nk tk k H E. assert (A : forallb (fun k => match ident_of_key k with Some i => negb (ident_eqb i TRKN || ident_eqb i DISK) || existsb (ik_eqb k) NUMBERS | None => true end) all_keys = true) by (vm_compute; reflexivity).
  pose proof (for_keys _ A k) as B. cbv beta in B. rewrite E in B. assert (X : ident_eqb i TRKN || ident_eqb i DISK = true) by (destruct H as [(-> & _)|(-> & _)]; reflexivity).
  rewrite X in B. cbn [negb orb] in B. apply existsb_exists in B as (x & I & Q). apply ik_eqb_eq in Q. now subst.
Qed.
Definition pair_bytes (n t : N) : bytes := [0; 0] ++ be_enc 2 n ++ be_enc 2 t ++ [0; 0].
Lemma pair_bytes_read : forall n t, n < 2 ^ 16 -> t < 2 ^ 16 -> be2 (pair_bytes n t) 2 = n /\ be2 (pair_bytes n t) 4 = t /\ lenN (pair_bytes n t) = 8.
Proof.
  intros n t H1 H2. unfold pair_bytes, be2. assert (E : forall n, exists a b, be_enc 2 n = [a; b]) by (intro; eexists _, _; reflexivity).
  destruct (E n) as (a & b & En), (E t) as (c & d & Et). pose proof (be_dec_enc 2 n H1) as D1. pose proof (be_dec_enc 2 t H2) as D2. rewrite En in *. rewrite Et in *. auto.
Qed.
Definition pair_of (i : ident) (n t : option N) : ilst := match n, t with None, None => [] | _, _ => [mkAtom i [AUnknown 0 (pair_bytes (or0 n) (or0 t))]] end.
Lemma pair_of_eq : forall i n t, int_pair i n t = pair_of i n t.
Proof. intros. unfold int_pair, pair_of, pair_bytes. destruct n, t; reflexivity. Qed.
Theorem C132_numbers : forall i nk tk rest (t : mtag), numbered i nk tk ->
  only i (merge_tag rest t) = only i rest ++ pair_of i (last_number (get_strings t nk)) (last_number (get_strings t tk)).
Proof.
  intros i nk tk rest t H. rewrite merge_eq, !only_app. rewrite !last_number_fold, !pair_of_eq.
  rewrite (items_only_num i) by (intros; eapply number_keys; eauto). assert (NC : only i (covr_atom (t_pictures t)) = []).
  { unfold covr_atom. destruct (t_pictures t); auto. unfold only. cbn [filter at_ident]. destruct (ident_dec covr_ident i) as [E|]; auto. destruct H as [(-> & _)|(-> & _)]; discriminate. }
  rewrite NC. cbn [app]. f_equal. change (nums ?k (t_items t)) with (get_strings t k).
  assert (S : forall a b, only i (pair_of i a b) = pair_of i a b) by (intros; unfold pair_of, only; destruct a, b; auto; cbn [filter at_ident]; destruct (ident_dec i i); congruence).
  rewrite <- !pair_of_eq in *. destruct H as [(-> & -> & ->)|(-> & -> & ->)].
  - rewrite (only_pair_ne TRKN DISK) by discriminate. rewrite !pair_of_eq, S. apply app_nil_r.
  - rewrite (only_pair_ne DISK TRKN) by discriminate. rewrite !pair_of_eq, S. reflexivity.
Qed.
Print Assumptions C132_numbers.
(** The rating: every item with an accepted number becomes an atom. *)
Definition accepted (s : str) : option rating := match parse_uint U8_MAX s with Some n => rating_of n | None => None end.
Definition rating_atom (r : rating) : atom := mkAtom RTNG [ASigned (Z.of_N (rating_u8 r))].
Lemma rtng_keys : forall k, ident_of_key k = Some RTNG <-> k = KParentalAdvisory.
Proof.
  intro k. split. 2: intros ->; reflexivity. intro E.
  assert (A : forallb (fun k => match ident_of_key k with Some i => negb (ident_eqb i RTNG) || ik_eqb k KParentalAdvisory | None => true end) all_keys = true) by (vm_compute; reflexivity).
  pose proof (for_keys _ A k) as B. cbv beta in B. rewrite E in B. rewrite ident_eqb_refl in B. cbn [negb orb] in B. now apply ik_eqb_eq.
Qed.
Lemma item_rtng : forall x, only RTNG (item_atoms x) = map rating_atom (TagModel.filter_map accepted (nums KParentalAdvisory [x])).
Proof.
  intro x. unfold nums. cbn [TagModel.filter_map]. destruct (ik_eqb (it_key x) KParentalAdvisory) eqn:K.
  - apply ik_eqb_eq in K. unfold item_atoms, merge_item. rewrite K. change (ident_of_key KParentalAdvisory) with (Some RTNG). cbv beta iota. destruct (it_value x) as [s| |]; auto.
    cbn [merge_text snd value_text TagModel.filter_map]. unfold accepted. destruct (parse_uint U8_MAX s) as [n|]; auto. destruct (rating_of n); auto.
  - cbn [map]. destruct (item_atoms x) as [|a r] eqn:IA; auto. destruct (item_atoms_spec x a) as (j & s & V & I & IA2 & AI & D). { rewrite IA. now left. }
    rewrite IA in IA2. inversion IA2; subst. unfold only. cbn [filter]. destruct (ident_dec (at_ident a) RTNG) as [E|]; auto. exfalso. rewrite E in I. apply rtng_keys in I. rewrite I in K. discriminate.
Qed.
Theorem C132_rating : forall rest (t : mtag), only RTNG (merge_tag rest t) = only RTNG rest ++ map rating_atom (TagModel.filter_map accepted (get_strings t KParentalAdvisory)).
Proof.
  intros. rewrite merge_eq, !only_app, !only_pair_ne by discriminate. assert (NC : only RTNG (covr_atom (t_pictures t)) = []) by (unfold covr_atom; destruct (t_pictures t); auto).
  rewrite NC, !app_nil_r. f_equal. change (get_strings t KParentalAdvisory) with (nums KParentalAdvisory (t_items t)). induction (t_items t) as [|x l IH]; auto. cbn [flat_map]. rewrite only_app, IH, item_rtng, <- map_app, <- fm_app.
  unfold nums. rewrite <- fm_app. reflexivity.
Qed.
Print Assumptions C132_rating.
(** All other atoms stay as they are. *)
Theorem C132_rest : forall rest (t : mtag) i, key_of_ident i = None -> i <> covr_ident -> only i (merge_tag rest t) = only i rest.
Proof.
  intros rest t i K NC. rewrite merge_eq, !only_app. rewrite items_only by (intros k E; destruct (ident_known _ _ E) as (k' & K' & _); congruence).
  rewrite !only_pair_ne by (intros ->; vm_compute in K; discriminate). rewrite app_nil_r. cbn [app]. unfold covr_atom. destruct (t_pictures t). now rewrite app_nil_r. unfold only at 2. cbn [filter at_ident]. destruct (ident_dec covr_ident i); [congruence|]. apply app_nil_r.
Qed.
Print Assumptions C132_rest.
(** Items that are not text are lost, and so are numbers above 65535. *)
Theorem C132_locator_refuted : ~ (forall (t : mtag) x k, In x (t_items t) -> it_key x = k -> lands k = Some k -> value_into_string (it_value x) <> None -> texts k (merge_tag [] t) <> []).
Proof.
  intro H. specialize (H (mkTag Mp4Ilst [] [new_item KPodcastUrl (VLocator ($"u"))] None) (new_item KPodcastUrl (VLocator ($"u"))) KPodcastUrl (or_introl eq_refl) eq_refl).
  vm_compute in H. apply H; auto. discriminate.
Qed.
Print Assumptions C132_locator_refuted.
Theorem C132_large_number_refuted : ~ (forall n (t : mtag), get_strings t KTrackNumber = [to_dec n] -> n < 2 ^ 32 -> number TRKN (merge_tag [] t) = Some (n mod 2 ^ 16)).
Proof. intro H. specialize (H 65537 (mkTag Mp4Ilst [] [new_item KTrackNumber (VText ($"65537"))] None)). vm_compute in H. discriminate H; reflexivity. Qed.
Print Assumptions C132_large_number_refuted.
Example C132_ex : merge_tag [mkAtom (Fourcc ($"abcd")) [AUtf8 ($"x")]]
    (mkTag Mp4Ilst [front] [new_item KTrackNumber (VText ($"03")); new_item KTrackTitle (VText ($"a")); new_item KDiscTotal (VText ($"2")); new_item KFlagPodcast (VText ($"true"));
       new_item KParentalAdvisory (VText ($"4")); new_item KIsrc (VText ($"i")); new_item KYear (VText ($"1999"))] None) =
  [mkAtom (Fourcc ($"abcd")) [AUtf8 ($"x")]; mkAtom TITLE [AUtf8 ($"a")]; mkAtom (Fourcc ($"pcst")) [ABool true]; mkAtom RTNG [ASigned 1];
   mkAtom (Freeform ($"com.apple.iTunes") ($"ISRC")) [AUtf8 ($"i")]; mkAtom covr_ident [APic (as_other front)]; mkAtom TRKN [AUnknown 0 [0; 0; 0; 3; 0; 0; 0; 0]]; mkAtom DISK [AUnknown 0 [0; 0; 0; 0; 0; 2; 0; 0]]].
Proof. vm_compute. reflexivity. Qed.
