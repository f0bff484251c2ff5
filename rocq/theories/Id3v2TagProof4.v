(** Proofs about the conversion of an ID3v2 tag to a Tag and back: whole tags. *)
From Coq Require Import Permutation.
From Verif Require Import BaseLemmas TrimModel TextProof ApeProof FrameProof2 FrameListProof Frame23Proof Id3v2TagProof Id3v2TagProof2 Id3v2TagProof3.
From Verif Require Import Id3v2TagSpec.

Section Conv.
Variable custom : provider.
Notation split := (split_frame custom).

Lemma number_known : forall id, number_keys id <> None -> from_key Id3v2 id <> None.
Proof.
  intros id. unfold number_keys. destruct (list_eqb id ($"TRCK")) eqn:E. apply list_eqb_eq in E. subst. intros _. vm_compute. discriminate.
  destruct (list_eqb id ($"TPOS")) eqn:E2. apply list_eqb_eq in E2. subst. intros _. vm_compute. discriminate.
  destruct (list_eqb id ($"MVIN")) eqn:E3. apply list_eqb_eq in E3. subst. intros _. vm_compute. discriminate. congruence.
Qed.
Lemma role_key : forall s, ~ In s ROLES -> tipl_key s = None.
Proof.
  intros s H. unfold tipl_key. destruct (find _ _) as [[k n]|] eqn:E; auto. apply find_some in E as [I E]. apply list_eqb_eq in E. cbn [snd] in E. subst s.
  exfalso. apply H. unfold TIPL_MAPPINGS in I. cbn [In] in I. unfold ROLES. cbn [In]. repeat destruct I as [I | I]; try contradiction; injection I; intros; subst; tauto.
Qed.
Lemma kept_split : forall f, is_kept custom f -> split f = retained f.
Proof.
  intros f K. unfold split_frame. destruct f; cbn [is_kept] in K; auto; try contradiction.
  - destruct (number_keys (f_name (FText h e value))) as [[n t]|] eqn:E. exfalso. apply (number_known (f_name (FText h e value))); congruence.
    unfold by_key. rewrite K. destruct (list_eqb (f_name (FText h e value)) ($"TCON")) eqn:T; auto. apply list_eqb_eq in T. rewrite T in K. vm_compute in K. discriminate K.
  - destruct K as [-> | K]; auto. unfold by_key. rewrite K. destruct desc; auto.
  - unfold by_key. now rewrite K.
  - destruct desc; auto. destruct K as [K|[K|K]]; [discriminate K| |].
    + replace (lenN (utf8_enc (n :: desc)) =? 4) with true; auto. symmetry. apply N.eqb_eq. unfold lenN. rewrite K. reflexivity.
    + unfold by_key. rewrite K. now destruct (lenN (utf8_enc (n :: desc)) =? 4).
  - unfold popm_mapped. now rewrite K.
  - destruct (list_eqb (f_name (FKeyValue h e pairs)) ($"TIPL")) eqn:T; auto. destruct K as [K | [N F]]; [apply list_eqb_eq in T; contradiction|].
    assert (X : TagModel.filter_map (fun p => option_map (fun k => text_item k (snd p)) (tipl_key (fst p))) pairs = [] /\ filter (fun p => negb (is_some (tipl_key (fst p)))) pairs = pairs).
    { clear - F. induction pairs as [|[a b] l IH]; auto. apply Forall_cons_iff in F as [F1 F2]. destruct (IH F2) as [I1 I2]. cbn [TagModel.filter_map filter fst snd] in *.
      rewrite (role_key a F1). cbn [option_map is_some negb]. rewrite I2. auto. }
    destruct X as [-> ->]. destruct pairs; [congruence|]. reflexivity.
  - destruct (list_eqb owner MUSICBRAINZ) eqn:E; auto. apply list_eqb_eq in E. contradiction.
  - now rewrite K.
Qed.
Lemma free_nothing : forall f, free f ctx0.
Proof. intros f. split; auto. Qed.
Lemma canonical_split : forall f, canonical custom f -> exists its, split f = consumed its.
Proof. intros f K. destruct (step_canonical custom true ctx0 f K (or_introl eq_refl) (free_nothing f)) as (its & c & d & E & _). eauto. Qed.

(** What splitting gives. *)
Definition its (f : frame) : list tag_item := sp_items (split f).
Lemma split_parts : forall l, Forall (converts custom) l ->
  exists ks cs ps, Permutation l (ks ++ cs ++ map picture_frame ps) /\
    TagModel.filter_map sp_left (map split l) = ks /\ flat_map sp_pictures (map split l) = ps /\
    flat_map sp_items (map split l) = flat_map its cs /\ Forall (canonical custom) cs /\ Forall (is_kept custom) ks.
Proof.
  induction l as [|f l IH]; intros F.
  - exists [], [], []. repeat split; auto.
  - apply Forall_cons_iff in F as [C F]. destruct (IH F) as (ks & cs & ps & P & E1 & E2 & E3 & F1 & F2). destruct C as [C|[C|(p & ->)]].
    + destruct (canonical_split f C) as (i & S). exists ks, (f :: cs), ps. cbn [map TagModel.filter_map flat_map]. unfold its at 1. rewrite S. cbn [sp_left sp_pictures sp_items consumed].
      rewrite E1, E2, E3. repeat split; auto. rewrite P. cbn [app]. apply Permutation_cons_app. reflexivity.
    + exists (f :: ks), cs, ps. cbn [map TagModel.filter_map flat_map]. rewrite (kept_split f C). cbn [sp_left sp_pictures sp_items retained].
      rewrite E1, E2, E3. repeat split; auto. cbn [app]. now constructor.
    + exists ks, cs, (p :: ps). cbn [map TagModel.filter_map flat_map]. change (split (picture_frame p)) with (mkSplit [] [p] None). cbn [sp_left sp_pictures sp_items].
      rewrite E1, E2, E3. repeat split; auto. rewrite P. cbn [map]. rewrite !app_assoc. apply Permutation_cons_app. reflexivity.
Qed.

(** At most one list of people. *)
Definition one_tipl (l : list frame) : Prop := (length (filter is_tipl l) <= 1)%nat.
Lemma one_tipl_perm : forall l l', Permutation l l' -> one_tipl l -> one_tipl l'.
Proof. intros l l' P H. unfold one_tipl in *. now rewrite <- (Permutation_length (filter_perm _ is_tipl _ _ P)). Qed.
Lemma one_tipl_tail : forall a b, one_tipl (a ++ b) -> one_tipl b.
Proof. intros a b H. unfold one_tipl in *. rewrite filter_app, app_length in H. lia. Qed.
Lemma one_tipl_head : forall a b, one_tipl (a ++ b) -> one_tipl a.
Proof. intros a b H. unfold one_tipl in *. rewrite filter_app, app_length in H. lia. Qed.

Lemma NoDup_app_remove_l : forall A (l l' : list A), NoDup (l ++ l') -> NoDup l'.
Proof. induction l as [|a l IH]; intros l' H; auto. apply IH. now apply NoDup_cons_iff in H. Qed.
Lemma NoDup_app_remove_r : forall A (l l' : list A), NoDup (l ++ l') -> NoDup l.
Proof. intros A l l' H. apply (NoDup_app_remove_l A l'). eapply Permutation_NoDup; [apply Permutation_app_comm|exact H]. Qed.
Lemma run_list : forall owned cs c, Forall (canonical custom) cs -> (owned = true \/ Forall (fun f => is_url f = false) cs) ->
  NoDup (map identity_of (cs ++ ctx_frames c)) -> one_tipl (cs ++ ctx_frames c) ->
  exists c' d, items_to_frames custom owned c (flat_map its cs) = (c', d) /\ Permutation (d ++ ctx_frames c') (cs ++ ctx_frames c).
Proof.
  intros owned. induction cs as [|f cs IH]; intros c K O ND OT.
  - exists c, []. split; auto.
  - apply Forall_cons_iff in K as [K1 K2]. cbn [app map] in ND. apply NoDup_cons_iff in ND as [NI ND].
    assert (Fr : free f c).
    { split.
      - intros I. apply NI. rewrite map_app. apply in_or_app. now right.
      - intros T. destruct (c_tipl c) as [|p l] eqn:E; auto. exfalso. unfold one_tipl in OT. cbn [app filter] in OT. rewrite T in OT. cbn [length] in OT.
        rewrite filter_app, app_length in OT. unfold ctx_frames in OT. rewrite E in OT. cbn [app filter] in OT. unfold is_tipl at 2 in OT. cbn [length] in OT.
        change (id_eqb (f_id (tipl_frame (p :: l))) (Valid ($"TIPL"))) with true in OT. cbn [length] in OT. lia. }
    assert (Of : owned = true \/ is_url f = false) by (destruct O as [O|O]; auto; apply Forall_cons_iff in O; tauto).
    destruct (step_canonical custom owned c f K1 Of Fr) as (i & c1 & d1 & S & R & P).
    assert (I : its f = i) by (unfold its; rewrite S; reflexivity).
    assert (PP : Permutation (d1 ++ cs ++ ctx_frames c1) (f :: cs ++ ctx_frames c)).
    { transitivity (cs ++ d1 ++ ctx_frames c1). rewrite !app_assoc. apply Permutation_app_tail, Permutation_app_comm.
      transitivity (cs ++ f :: ctx_frames c). now apply Permutation_app_head. symmetry. apply Permutation_middle. }
    destruct (IH c1) as (c2 & d2 & R2 & P2); auto.
    + destruct O as [O|O]; auto. right. now apply Forall_cons_iff in O.
    + assert (X : NoDup (map identity_of (d1 ++ cs ++ ctx_frames c1))).
      { eapply Permutation_NoDup; [symmetry; apply Permutation_map; exact PP|]. cbn [map]. now constructor. }
      rewrite map_app in X. now apply NoDup_app_remove_l in X.
    + apply (one_tipl_tail d1). apply (one_tipl_perm (f :: cs ++ ctx_frames c)). now symmetry. exact OT.
    + exists c2, (d1 ++ d2). cbn [flat_map]. rewrite I, run_app, R, R2. split; auto.
      rewrite <- app_assoc, P2. exact PP.
Qed.

(** A set of frames that are all different. *)
Lemma set_of_app : forall l acc, Forall (fun f => in_names (f_name f) ONE_PER_TAG = false) (acc ++ l) -> NoDup (map identity_of (acc ++ l)) ->
  fold_left (fun acc f => if existsb (fun g => frame_eqb g f) acc then acc else acc ++ [f]) l acc = acc ++ l.
Proof.
  induction l as [|f l IH]; intros acc F N; cbn [fold_left]. now rewrite app_nil_r.
  replace (existsb (fun g => frame_eqb g f) acc) with false.
  - rewrite IH; rewrite <- app_assoc; auto.
  - symmetry. destruct (existsb (fun g => frame_eqb g f) acc) eqn:E; auto. apply existsb_exists in E as (g & I & E).
    rewrite Forall_forall in F. apply frame_eqb_spec in E. 2: apply F, in_or_app; now left. 2: apply F, in_or_app; right; now left.
    rewrite map_app in N. cbn [map] in N. apply NoDup_remove_2 in N. exfalso. apply N. apply in_or_app. left. rewrite <- E. now apply in_map.
Qed.
Lemma canonical_name : forall f, canonical custom f -> in_names (f_name f) ONE_PER_TAG = false.
Proof.
  intros f K. destruct K; try reflexivity.
  - each_name H; reflexivity.
  - each_name H; reflexivity.
  - destruct H as [<- |[<- |[]]]; reflexivity.
  - destruct H as [<- |[<- |[]]]; reflexivity.
  - destruct H as [<- |[<- |[]]]; reflexivity.
  - each_name H; reflexivity.
Qed.
Lemma from_tag_canonical : forall owned cs, Forall (canonical custom) cs -> (owned = true \/ Forall (fun f => is_url f = false) cs) ->
  NoDup (map identity_of cs) -> one_tipl cs -> Permutation (from_tag custom owned (flat_map its cs)) cs.
Proof.
  intros owned cs K O ND OT. destruct (run_list owned cs ctx0 K O) as (c & d & R & P).
  change (ctx_frames ctx0) with (@nil frame). now rewrite app_nil_r. change (ctx_frames ctx0) with (@nil frame). now rewrite app_nil_r.
  change (ctx_frames ctx0) with (@nil frame) in P. rewrite app_nil_r in P. unfold from_tag. rewrite R. unfold set_of.
  rewrite (set_of_app (d ++ ctx_frames c) []). exact P.
  - apply Forall_forall. intros f I. cbn [app] in I. apply (Permutation_in _ P) in I. rewrite Forall_forall in K. apply canonical_name. auto.
  - cbn [app]. eapply Permutation_NoDup; [|exact ND]. apply Permutation_map. now symmetry.
Qed.

Lemma take_first_none' : forall l, filter is_tipl l = [] -> fst (take_first is_tipl l) = None.
Proof. induction l as [|f l IH]; intros H; auto. cbn [filter take_first] in *. destruct (is_tipl f); [discriminate|]. destruct (take_first is_tipl l). cbn in *. auto. Qed.
Lemma merge_all : forall l ks, one_tipl (ks ++ l) -> fold_left merge_frame l ks = ks ++ l.
Proof.
  induction l as [|f l IH]; intros ks H; cbn [fold_left]. now rewrite app_nil_r.
  assert (X : merge_frame ks f = ks ++ [f]).
  { unfold merge_frame. destruct (is_tipl f) eqn:T; auto. assert (E : filter is_tipl ks = []).
    { unfold one_tipl in H. rewrite filter_app, app_length in H. cbn [filter] in H. rewrite T in H. cbn [length] in H. destruct (filter is_tipl ks); auto. cbn in H. lia. }
    apply take_first_none' in E. destruct (take_first is_tipl ks) as [o r]. cbn in E. subst o. reflexivity. }
  rewrite X, IH. now rewrite <- app_assoc. now rewrite <- app_assoc.
Qed.
Lemma insert_pictures : forall ps l, NoDup (map identity_of (l ++ map picture_frame ps)) ->
  fold_left (fun l p => fst (fl_insert (picture_frame p) l)) ps l = l ++ map picture_frame ps.
Proof.
  induction ps as [|p ps IH]; intros l N; cbn [fold_left map]. now rewrite app_nil_r.
  assert (X : fst (fl_insert (picture_frame p) l) = l ++ [picture_frame p]).
  { unfold fl_insert. change (in_names (f_name (picture_frame p)) ONE_PER_TAG) with false. cbv iota. rewrite take_first_none; auto.
    apply Forall_forall. intros g I. destruct (frame_eqb g (picture_frame p)) eqn:E; auto. exfalso.
    assert (Eg : g = picture_frame p).
    { destruct g; try discriminate E. cbn [frame_eqb picture_frame] in E. rewrite !andb_true_iff, !yes_true in E. destruct E as [[-> ->] ->]. reflexivity. }
    subst g. rewrite map_app in N. cbn [map] in N. apply NoDup_remove_2 in N. apply N. apply in_or_app. left. now apply in_map. }
  rewrite X, IH; rewrite <- app_assoc; auto.
Qed.

Lemma nodup_perm : forall l l', Permutation l l' -> NoDup (map identity_of l) -> NoDup (map identity_of l').
Proof. intros. eapply Permutation_NoDup; [apply Permutation_map; eauto|auto]. Qed.
Lemma round_trip : forall order t, (forall l, Permutation (order l) l) -> Forall (converts custom) (t_frames t) -> NoDup (map identity_of (t_frames t)) -> one_tipl (t_frames t) ->
  let t' := of_tag order custom true (to_tag custom true t) in
  Permutation (t_frames t') (t_frames t) /\ (Exists (is_kept custom) (t_frames t) -> same_head t t').
Proof.
  intros order t Or F N O t'. destruct (split_parts _ F) as (ks & cs & ps & P & E1 & E2 & E3 & Fc & Fk).
  pose proof (nodup_perm _ _ P N) as N'. pose proof (one_tipl_perm _ _ P O) as O'.
  assert (Nc : NoDup (map identity_of cs)).
  { rewrite !map_app in N'. apply NoDup_app_remove_l in N'. now apply NoDup_app_remove_r in N'. }
  assert (Oc : one_tipl cs) by (apply (one_tipl_head cs (map picture_frame ps)); now apply one_tipl_tail with ks).
  pose proof (from_tag_canonical true cs Fc (or_introl eq_refl) Nc Oc) as FT.
  pose proof (Permutation_trans (Or (from_tag custom true (flat_map its cs))) FT) as OP.
  assert (M : forall t0, t_frames t0 = ks -> forall g, t_items g = flat_map its cs -> t_pictures g = ps ->
            Permutation (t_frames (merge_tag order custom t0 g)) (t_frames t)).
  { intros t0 E0 g Eg Ep. unfold merge_tag, with_frames. cbn [t_frames]. rewrite Eg, Ep, E0.
    assert (Q : Permutation (ks ++ cs ++ map picture_frame ps) ((ks ++ order (from_tag custom true (flat_map its cs))) ++ map picture_frame ps)).
    { rewrite <- app_assoc. apply Permutation_app_head, Permutation_app_tail. now symmetry. }
    rewrite merge_all. 2: { apply (one_tipl_head _ (map picture_frame ps)). eapply one_tipl_perm; [exact Q|exact O']. }
    rewrite insert_pictures. 2: { eapply nodup_perm; [exact Q|exact N']. }
    rewrite <- Q. now symmetry. }
  unfold t', of_tag, to_tag, split_tag. rewrite E1, E2, E3. cbn [t_companion t_items t_pictures andb negb]. unfold with_frames. cbn [t_frames].
  destruct ks as [|k ks].
  - cbn [empty negb]. split. now apply M. intros X. exfalso. apply Exists_exists in X as (f & I & Kf).
    assert (E4 : In f (TagModel.filter_map sp_left (map split (t_frames t)))).
    { clear - I Kf. induction (t_frames t) as [|g l IH]; [contradiction|]. cbn [map TagModel.filter_map]. destruct I as [-> | I].
      - rewrite (kept_split f Kf). now left.
      - destruct (sp_left (split g)); [right|]; auto. }
    rewrite E1 in E4. contradiction.
  - cbn [empty negb]. split. now apply M. intros _. split; reflexivity.
Qed.
Lemma by_ref : forall order t, (forall l, Permutation (order l) l) -> Forall (converts custom) (t_frames t) -> NoDup (map identity_of (t_frames t)) -> one_tipl (t_frames t) ->
  Forall (fun f => canonical custom f -> is_url f = false) (t_frames t) ->
  Permutation (tag_frames order custom (to_tag custom true t)) (t_frames t).
Proof.
  intros order t Or F N O U. destruct (split_parts _ F) as (ks & cs & ps & P & E1 & E2 & E3 & Fc & Fk).
  pose proof (nodup_perm _ _ P N) as N'. pose proof (one_tipl_perm _ _ P O) as O'.
  assert (Nc : NoDup (map identity_of cs)).
  { rewrite !map_app in N'. apply NoDup_app_remove_l in N'. now apply NoDup_app_remove_r in N'. }
  assert (Oc : one_tipl cs) by (apply (one_tipl_head cs (map picture_frame ps)); now apply one_tipl_tail with ks).
  assert (Uc : Forall (fun f => is_url f = false) cs).
  { apply Forall_forall. intros f I. rewrite Forall_forall in U, Fc. apply U; auto. apply (Permutation_in _ (Permutation_sym P)). apply in_or_app. right. apply in_or_app. now left. }
  pose proof (from_tag_canonical false cs Fc (or_intror Uc) Nc Oc) as FT.
  unfold tag_frames, to_tag, split_tag. rewrite E1, E2, E3. cbn [t_companion t_items t_pictures andb negb]. unfold with_frames. cbn [t_frames].
  rewrite Or, FT. transitivity (cs ++ ks ++ map picture_frame ps).
  - apply Permutation_app_head, Permutation_app_tail. destruct ks; reflexivity.
  - rewrite P. rewrite !app_assoc. apply Permutation_app_tail, Permutation_app_comm.
Qed.

(** *** The items of a Tag. *)
Ltac each_pair H := unfold TEXT_OF, SINGLE_OF, USER_OF, GAIN_OF, URL_OF, ROLE_OF, PAIR_OF, DATE_OF in H; cbn [In] in H; repeat destruct H as [H | H]; try contradiction; injection H; intros; subst; clear H.
Lemma text_of_facts : forall k id, In (k, id) TEXT_OF -> In id MULTI_TEXT /\ from_key Id3v2 id = Some k /\ number_keys id = None /\ list_eqb id ($"TCON") = false.
Proof. intros k id H. each_pair H; (split; [unfold MULTI_TEXT; cbn [In]; tauto|split; [vm_compute; reflexivity|split; reflexivity]]). Qed.
Lemma single_of_facts : forall k id, In (k, id) SINGLE_OF -> In id SINGLE_TEXT /\ from_key Id3v2 id = Some k /\ number_keys id = None /\ list_eqb id ($"TCON") = false.
Proof. intros k id H. each_pair H; (split; [unfold SINGLE_TEXT; cbn [In]; tauto|split; [vm_compute; reflexivity|split; reflexivity]]). Qed.
Lemma user_of_facts : forall k id, In (k, id) USER_OF -> In id MULTI_USER /\ from_key Id3v2 id = Some k /\ id <> [].
Proof. intros k id H. each_pair H; (split; [unfold MULTI_USER; cbn [In]; tauto|split; [vm_compute; reflexivity|discriminate]]). Qed.
Lemma gain_of_facts : forall k id, In (k, id) GAIN_OF -> In id GAINS /\ from_key Id3v2 id = Some k /\ id <> [].
Proof. intros k id H. each_pair H; (split; [unfold GAINS; cbn [In]; tauto|split; [vm_compute; reflexivity|discriminate]]). Qed.
Lemma url_of_facts : forall k id, In (k, id) URL_OF -> In id URLS /\ from_key Id3v2 id = Some k.
Proof. intros k id H. each_pair H; (split; [unfold URLS; cbn [In]; tauto|vm_compute; reflexivity]). Qed.
Lemma pair_of_facts : forall k k' id, In (k, k', id) PAIR_OF -> In id [$"TRCK"; $"TPOS"] /\ number_keys id = Some (k, k').
Proof. intros k k' id H. each_pair H; (split; [vm_compute; tauto|vm_compute; reflexivity]). Qed.
Lemma values_nul : forall l, l <> [] -> Forall no_nul l -> values (nul_joined l) = l.
Proof. intros l N F. rewrite nul_joined_eq. unfold values. now apply split_joined. Qed.
Lemma carries_spec : forall g f, carries custom g f -> canonical custom f /\ its f = g.
Proof.
  intros g f K. unfold its. destruct K.
  - destruct (text_of_facts _ _ H) as (M & K & Nk & T). split; [now constructor|].
    unfold split_frame. change (f_name (text_frame id (nul_joined l))) with id. cbn [text_frame]. rewrite Nk, T. unfold by_key. rewrite K. cbn [sp_items consumed]. now rewrite values_nul.
  - destruct (single_of_facts _ _ H) as (M & K & Nk & T). split; [now constructor|].
    unfold split_frame. change (f_name (text_frame id s)) with id. cbn [text_frame]. rewrite Nk, T. unfold by_key. rewrite K. cbn [sp_items consumed]. now rewrite value_one.
  - split; [now constructor|]. unfold split_frame. change (f_name (text_frame ($"TCON") (nul_joined l))) with ($"TCON"). cbn [text_frame].
    change (number_keys ($"TCON")) with (@None (item_key * item_key)). cbv iota. rewrite list_eqb_refl. cbn [sp_items consumed]. now rewrite genres_of.
  - destruct (pair_of_facts _ _ _ H) as (M & K). split; [now constructor|].
    unfold split_frame. change (f_name (text_frame id (to_dec n))) with id. cbn [text_frame]. rewrite K, split_pair_one by auto. reflexivity.
  - destruct (pair_of_facts _ _ _ H) as (M & K). split; [now constructor|].
    unfold split_frame. change (f_name (text_frame id (to_dec n ++ $"/" ++ to_dec m))) with id. cbn [text_frame]. rewrite K, split_pair_two by auto. reflexivity.
  - split; [apply can_flag|]. destruct b; reflexivity.
  - split.
    + apply can_time; auto. each_pair H; vm_compute; tauto.
    + assert (X : from_key Id3v2 id = Some k) by (each_pair H; vm_compute; reflexivity).
      unfold split_frame. change (f_name (time_frame id d)) with id. cbn [time_frame]. rewrite X, H0. reflexivity.
  - destruct (user_of_facts _ _ H) as (M & K & Ne). split; [now constructor|].
    unfold split_frame. cbn [user_text_frame]. destruct d; [congruence|]. unfold by_key. rewrite K. cbn [sp_items consumed]. now rewrite values_nul.
  - destruct (gain_of_facts _ _ H) as (M & K & Ne). split; [now constructor|].
    unfold split_frame. cbn [user_text_frame]. destruct d; [congruence|]. unfold by_key. rewrite K. cbn [sp_items consumed]. now rewrite value_one.
  - split; [now constructor|]. assert (X : n = 0 \/ n = 1 \/ n = 2) by lia. destruct X as [-> |[-> | ->]]; vm_compute; reflexivity.
  - split; [constructor; now right|]. unfold split_frame. cbn [comment_frame consumed sp_items]. rewrite value_one; auto.
  - split; [constructor; now right|]. unfold split_frame. cbn [unsync_frame consumed sp_items]. rewrite value_one; auto.
  - destruct (url_of_facts _ _ H) as (M & K). split; [now constructor|].
    unfold split_frame. change (f_name (url_frame id s)) with id. cbn [url_frame]. unfold by_key. now rewrite K.
  - split; [now constructor|]. unfold split_frame. cbn [ufid_frame]. rewrite list_eqb_refl. unfold decode_text, decode_raw.
    assert (E : latin1_decode s = s) by (apply trim_id; eapply Forall_impl; [|exact H]; cbv beta; intros; lia).
    destruct s; [reflexivity|]. cbn [bind]. rewrite E. reflexivity.
  - split; [now constructor|]. unfold split_frame, popm_mapped. rewrite H, H0. cbn [sp_items consumed]. unfold popm_display. cbn [pm_email pm_rating pm_count].
    destruct email; reflexivity.
  - split.
    + constructor. now destruct l. apply Forall_forall. intros p I. apply in_map_iff in I as (q & <- & I). cbn [fst]. rewrite Forall_forall in H0. specialize (H0 q I).
      destruct q as [[k r] s]. cbn [fst snd] in *. each_pair H0; unfold ROLES; cbn [In]; tauto.
    + unfold split_frame. change (f_name (tipl_frame (map (fun p => (snd (fst p), snd p)) l))) with ($"TIPL"). cbn [tipl_frame]. rewrite list_eqb_refl. cbn [sp_items].
      clear H. induction l as [|[[k r] s] l IH]; auto. apply Forall_cons_iff in H0 as [I F]. cbn [fst] in I. specialize (IH F).
      cbn [map TagModel.filter_map fst snd]. replace (tipl_key r) with (Some k). cbn [option_map]. now rewrite IH. each_pair I; reflexivity.
Qed.
Lemma carried : forall gs fs, Forall2 (carries custom) gs fs -> Forall (canonical custom) fs /\ flat_map its fs = concat gs /\ map its fs = gs.
Proof.
  induction 1 as [|g f gs fs K _ (IH1 & IH2 & IH3)]; auto. destruct (carries_spec g f K) as [C E]. repeat split.
  - now constructor.
  - cbn [flat_map concat]. now rewrite E, IH2.
  - cbn [map]. now rewrite E, IH3.
Qed.
Lemma split_canonical : forall l, Forall (canonical custom) l ->
  TagModel.filter_map sp_left (map split l) = [] /\ flat_map sp_pictures (map split l) = [] /\ flat_map sp_items (map split l) = flat_map its l.
Proof.
  induction 1 as [|f l K _ (I1 & I2 & I3)]; auto. destruct (canonical_split f K) as (i & S). cbn [map TagModel.filter_map flat_map]. unfold its at 1. rewrite S.
  cbn [sp_left sp_pictures sp_items consumed]. rewrite I1, I2, I3. auto.
Qed.
Lemma items_round_trip : forall order preserve preserve' gs fs, (forall l, Permutation (order l) l) ->
  Forall2 (carries custom) gs fs -> NoDup (map identity_of fs) -> one_tipl fs ->
  let t := of_tag order custom preserve (mkTag Id3v2 [] (concat gs) None) in
  Permutation (t_frames t) fs /\
  exists gs', Permutation gs' gs /\ to_tag custom preserve' t = mkTag Id3v2 [] (concat gs') None.
Proof.
  intros order preserve preserve' gs fs Or K N O t. destruct (carried _ _ K) as (C & E & M).
  assert (P : Permutation (order (from_tag custom true (concat gs))) fs).
  { rewrite Or, <- E. apply from_tag_canonical; auto. }
  assert (T : t = mkT V4 NO_FLAGS (order (from_tag custom true (concat gs)))).
  { unfold t, of_tag. cbn [t_companion]. replace (if preserve then None else None) with (@None companion) by now destruct preserve.
    unfold merge_tag, with_frames. cbn [t_items t_pictures fold_left]. rewrite merge_all. reflexivity. cbn [id3v2_default t_frames app]. eapply one_tipl_perm; [|exact O]. now symmetry. }
  rewrite T. cbn [t_frames]. split; auto. exists (map its (order (from_tag custom true (concat gs)))). split.
  - transitivity (map its fs). now apply Permutation_map. now rewrite M.
  - unfold to_tag, split_tag. cbn [t_frames with_frames]. destruct (split_canonical (order (from_tag custom true (concat gs)))) as (S1 & S2 & S3).
    { apply Forall_forall. intros f I. rewrite Forall_forall in C. apply C. eapply Permutation_in; eauto. }
    rewrite S1, S2, S3. cbn [t_type t_pictures t_items]. unfold with_frames. cbn [t_frames empty negb]. rewrite andb_false_r. rewrite flat_map_concat_map. reflexivity.
Qed.
End Conv.
