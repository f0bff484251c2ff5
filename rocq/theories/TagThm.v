(** Tag operations: C25, C26, C27, C55, C63, C64, C65, C66. *)
From Coq Require Import Permutation.
From Verif Require Import BaseLemmas StrLemmas ItemKeyThm TimestampSpec TimestampProof TimestampThm TextProof PictureThm TagModel.

(** ** Specification: which keys a tag type supports (documentation of [Tag::insert], [ItemKey::map_key]). *)
Definition supported (tt : tag_type) (k : item_key) : Prop :=
  match tt with
  | Id3v1 => In k [KTrackTitle; KTrackArtist; KAlbumTitle; KComment; KTrackNumber; KGenre; KYear; KRecordingDate]
  | _ => exists s, map_key tt k = Some s
  end.
Lemma supports_iff : forall tt k, supports tt k = true <-> supported tt k.
Proof.
  intros tt k. unfold supports, supported. destruct tt; cbn [tt_eqb].
  2:{ rewrite existsb_exists. split. intros (x & I & E). apply ik_eqb_eq in E. subst. exact I. intro I. exists k. split; auto. now apply ik_eqb_eq. }
  all: destruct (map_key _ k) as [s|]; split; (discriminate || eauto || (intros [? ?]; congruence)).
Qed.
Lemma ik_eqb_refl : forall k, ik_eqb k k = true.
Proof. intro. now apply ik_eqb_eq. Qed.
Lemma ik_dec : forall a b : item_key, {a = b} + {a <> b}.
Proof. intros. destruct (ik_eqb a b) eqn:E. left. now apply ik_eqb_eq. right. intros ->. rewrite ik_eqb_refl in E. discriminate. Qed.
Lemma ik_eqb_neq : forall a b, a <> b -> ik_eqb a b = false.
Proof. intros. destruct (ik_eqb a b) eqn:E; auto. apply ik_eqb_eq in E. congruence. Qed.

Definition with_key (k : item_key) (l : list tag_item) : list tag_item := filter (fun i => ik_eqb (it_key i) k) l.
Definition without_key (k : item_key) (l : list tag_item) : list tag_item := filter (fun i => negb (ik_eqb (it_key i) k)) l.
Lemma with_without : forall k l, with_key k (without_key k l) = [].
Proof. unfold with_key, without_key. induction l; cbn; auto. destruct (ik_eqb (it_key a) k) eqn:E; cbn; auto. now rewrite E. Qed.
Lemma without_without : forall k l, without_key k (without_key k l) = without_key k l.
Proof. unfold without_key. induction l; cbn; auto. destruct (ik_eqb (it_key a) k) eqn:E; cbn; auto. rewrite E. cbn. congruence. Qed.
Lemma with_other : forall k k' l, k <> k' -> with_key k' (without_key k l) = with_key k' l.
Proof.
  unfold with_key, without_key. induction l; cbn; auto. intro N. destruct (ik_eqb (it_key a) k) eqn:E; cbn.
  - apply ik_eqb_eq in E. rewrite E, (ik_eqb_neq k k') by auto. auto.
  - rewrite IHl by auto. reflexivity.
Qed.
Lemma find_hd : forall k l, find (fun i => ik_eqb (it_key i) k) l = hd_error (with_key k l).
Proof. unfold with_key. induction l; cbn; auto. destruct (ik_eqb (it_key a) k); auto. Qed.
Lemma get_hd : forall C (t : tag C) k, get t k = hd_error (with_key k (t_items t)).
Proof. intros. apply find_hd. Qed.
Lemma with_app : forall k a b, with_key k (a ++ b) = with_key k a ++ with_key k b.
Proof. intros. apply filter_app. Qed.
Lemma without_app : forall k a b, without_key k (a ++ b) = without_key k a ++ without_key k b.
Proof. intros. apply filter_app. Qed.

(** C25 *)
Theorem C25_insert : forall C (t : tag C) i,
  (supported (t_type t) (it_key i) -> exists t', insert i t = (true, t') /\
     get t' (it_key i) = Some i /\ with_key (it_key i) (t_items t') = [i] /\
     without_key (it_key i) (t_items t') = without_key (it_key i) (t_items t) /\
     (forall k, k <> it_key i -> get t' k = get t k /\ with_key k (t_items t') = with_key k (t_items t)) /\
     t_type t' = t_type t /\ t_pictures t' = t_pictures t /\ t_companion t' = t_companion t) /\
  (~ supported (t_type t) (it_key i) -> insert i t = (false, t)).
Proof.
  intros C t i. rewrite <- supports_iff. unfold insert. destruct (supports _ _); split; intro H; try congruence; try reflexivity.
  eexists. split; [reflexivity|]. unfold insert_unchecked. cbn [t_items t_type t_pictures t_companion with_items].
  fold (without_key (it_key i) (t_items t)).
  assert (W : with_key (it_key i) (without_key (it_key i) (t_items t) ++ [i]) = [i]).
  { rewrite with_app, with_without. unfold with_key. cbn. now rewrite ik_eqb_refl. }
  split; [|split; [exact W|split; [|split; [|auto]]]].
  - rewrite get_hd. cbn [t_items with_items]. now rewrite W.
  - rewrite without_app, without_without. unfold without_key at 2. cbn. rewrite ik_eqb_refl. cbn. apply app_nil_r.
  - intros k N. rewrite !get_hd. cbn [t_items with_items].
    assert (X : with_key k (without_key (it_key i) (t_items t) ++ [i]) = with_key k (t_items t)).
    { rewrite with_app, with_other by auto. unfold with_key at 2. cbn. rewrite ik_eqb_neq by auto. apply app_nil_r. }
    rewrite X. auto.
Qed.
Print Assumptions C25_insert.
Theorem C25_push : forall C (t : tag C) i,
  (supported (t_type t) (it_key i) -> push i t = (true, mkTag (t_type t) (t_pictures t) (t_items t ++ [i]) (t_companion t))) /\
  (~ supported (t_type t) (it_key i) -> push i t = (false, t)).
Proof. intros C t i. rewrite <- supports_iff. unfold push. destruct (supports _ _); split; intro H; try congruence; reflexivity. Qed.
Print Assumptions C25_push.
Theorem C25_remove_key : forall C (t : tag C) k i,
  get (remove_key k t) k = None /\ t_items (remove_key k t) = without_key k (t_items t) /\
  (In i (t_items (remove_key k t)) <-> In i (t_items t) /\ it_key i <> k) /\
  (forall k', k' <> k -> get (remove_key k t) k' = get t k') /\
  (contains (remove_key k t) k = false) /\ t_pictures (remove_key k t) = t_pictures t.
Proof.
  intros C t k i. unfold remove_key. rewrite !get_hd. cbn [t_items with_items t_pictures]. fold (without_key k (t_items t)).
  rewrite with_without. split; [reflexivity|]. split; [reflexivity|]. split; [|split; [|split; [|reflexivity]]].
  - unfold without_key. rewrite filter_In. split; intros [A B]; split; auto.
    intro E. rewrite E, ik_eqb_refl in B. discriminate. rewrite ik_eqb_neq; auto.
  - intros k' N. rewrite !get_hd. cbn [t_items with_items]. now rewrite with_other by auto.
  - unfold contains. cbn [t_items with_items]. apply Bool.not_true_is_false. intro E. apply existsb_exists in E as (x & I & E).
    apply filter_In in I as [_ I]. rewrite E in I. discriminate.
Qed.
Print Assumptions C25_remove_key.

Definition tt1 := new_item KTrackTitle (VText ($"one")).
Definition tt2 := new_item KTrackTitle (VText ($"two")).
Definition ar1 := new_item KTrackArtist (VText ($"a")).
Definition ar2 := new_item KTrackArtist (VText ($"b")).
Definition sample_tag : tag unit := mkTag Id3v2 [] [tt1; ar1; tt1] None.
Example C25_ex : insert tt2 sample_tag = (true, mkTag Id3v2 [] [ar1; tt2] None) /\
  insert (new_item KMusicBrainzRecordingId (VText [])) sample_tag = (false, sample_tag) /\
  push ar2 sample_tag = (true, mkTag Id3v2 [] [tt1; ar1; tt1; ar2] None) /\ remove_key KTrackTitle sample_tag = mkTag Id3v2 [] [ar1] None.
Proof. vm_compute. repeat split. Qed.

(** C26: what a (possibly stateful) filter selects when it is shown the items with the key in order. *)
Fixpoint selected {St} (k : item_key) (f : St -> tag_item -> bool * St) (s : St) (l : list tag_item) : list tag_item * list tag_item :=
  match l with
  | [] => ([], [])
  | i :: l' =>
      if ik_eqb (it_key i) k then
        let (a, b) := selected k f (snd (f s i)) l' in if fst (f s i) then (i :: a, b) else (a, i :: b)
      else let (a, b) := selected k f s l' in (a, i :: b)
  end.
Lemma update_app : forall A (l r : list A) x y, update (length l) y (l ++ x :: r) = l ++ y :: r.
Proof. induction l; cbn; intros; auto. now rewrite IHl. Qed.
Lemma nth_error_mid : forall A (l r : list A) x, nth_error (l ++ x :: r) (length l) = Some x.
Proof. induction l; cbn; auto. Qed.
Lemma swap_same : forall A (l r : list A) x, swap (length l) (length l) (l ++ x :: r) = l ++ x :: r.
Proof. intros. unfold swap. rewrite nth_error_mid, !update_app. reflexivity. Qed.
Lemma swap_mid : forall A (l m r : list A) x y, swap (length l) (length (l ++ x :: m)) (l ++ x :: m ++ y :: r) = l ++ y :: m ++ x :: r.
Proof.
  intros. unfold swap. rewrite nth_error_mid.
  replace (l ++ x :: m ++ y :: r) with ((l ++ x :: m) ++ y :: r) by (rewrite <- app_assoc; reflexivity).
  rewrite nth_error_mid, update_app, <- app_assoc. cbn [app]. apply update_app.
Qed.
Lemma take_loop_spec : forall St k (f : St -> tag_item -> bool * St) D s A B,
  exists R, take_loop (length D) (length (A ++ B)) (length A) k f s (A ++ B ++ D) =
    (A ++ fst (selected k f s D) ++ R, length (A ++ fst (selected k f s D))) /\ Permutation R (B ++ snd (selected k f s D)).
Proof.
  induction D as [|i D IH]; intros s A B.
  - cbn [length take_loop selected fst snd]. exists B. rewrite !app_nil_r. auto.
  - cbn [length take_loop selected]. rewrite app_assoc, nth_error_mid.
    assert (K : forall s', exists R, take_loop (length D) (S (length (A ++ B))) (length A) k f s' ((A ++ B) ++ i :: D) =
      (A ++ fst (selected k f s' D) ++ R, length (A ++ fst (selected k f s' D))) /\ Permutation R (B ++ i :: snd (selected k f s' D))).
    { intro s'. destruct (IH s' A (B ++ [i])) as (R & E & P). exists R. rewrite <- app_assoc in P. split; auto. rewrite <- E.
      f_equal. rewrite !app_length. cbn. lia. rewrite <- !app_assoc. reflexivity. }
    destruct (ik_eqb (it_key i) k).
    + destruct (f s i) as [b s']. cbn [fst snd].
      destruct (selected k f s' D) as [x y] eqn:ES. destruct b; cbn [fst snd].
      2:{ specialize (K s'). rewrite ES in K. exact K. }
      destruct B as [|b0 B].
      * rewrite app_nil_r, swap_same. destruct (IH s' (A ++ [i]) []) as (R & E & P). rewrite ES in E, P. cbn [fst snd] in E, P. exists R.
        split; [|exact P]. rewrite app_nil_r in E. repeat (rewrite <- app_assoc in E; cbn [app] in E). rewrite app_length in E at 1 2. cbn [length] in E.
        replace (length A + 1)%nat with (S (length A)) in E by lia. exact E.
      * replace ((A ++ b0 :: B) ++ i :: D) with (A ++ b0 :: B ++ i :: D) by (rewrite <- app_assoc; reflexivity).
        rewrite swap_mid. destruct (IH s' (A ++ [i]) (B ++ [b0])) as (R & E & P). rewrite ES in E, P. cbn [fst snd] in E, P. exists R. split.
        -- repeat (rewrite <- app_assoc in E; cbn [app] in E). cbn [app]. rewrite <- E. f_equal.
           rewrite !app_length. cbn. rewrite !app_length. cbn. lia. rewrite app_length. cbn. lia.
        -- rewrite P, <- app_assoc. cbn [app]. rewrite <- Permutation_middle. reflexivity.
    + destruct (selected k f s D) as [x y] eqn:ES. cbn [fst snd]. specialize (K s). rewrite ES in K. exact K.
Qed.
Theorem C26_take_filter_partial : forall C St k (f : St -> tag_item -> bool * St) s (t : tag C),
  exists t', take_filter k f s t = (fst (selected k f s (t_items t)), t') /\
    Permutation (t_items t') (snd (selected k f s (t_items t))) /\
    t_type t' = t_type t /\ t_pictures t' = t_pictures t /\ t_companion t' = t_companion t.
Proof.
  intros. unfold take_filter. destruct (take_loop_spec St k f (t_items t) s [] []) as (R & E & P). cbn [app length] in E, P. rewrite E.
  rewrite skipn_app, Nat.sub_diag, skipn_all, firstn_app, Nat.sub_diag, firstn_all. cbn [skipn firstn app]. rewrite app_nil_r.
  exists (with_items t R). auto.
Qed.
Print Assumptions C26_take_filter_partial.
Lemma selected_true : forall k l, selected k (fun (_ : unit) _ => (true, Coq.Init.Datatypes.tt)) Coq.Init.Datatypes.tt l = (with_key k l, without_key k l).
Proof. induction l; auto. cbn [selected snd fst]. rewrite IHl. unfold with_key, without_key. cbn [filter]. destruct (ik_eqb (it_key a) k); reflexivity. Qed.
Theorem C26_take_partial : forall C k (t : tag C), exists t', take k t = (with_key k (t_items t), t') /\
  Permutation (t_items t') (without_key k (t_items t)) /\ t_type t' = t_type t /\ t_pictures t' = t_pictures t /\ t_companion t' = t_companion t.
Proof.
  intros. unfold take. destruct (C26_take_filter_partial C unit k (fun _ _ => (true, Coq.Init.Datatypes.tt)) Coq.Init.Datatypes.tt t) as (t' & E & P).
  rewrite selected_true in *. exists t'. auto.
Qed.
Print Assumptions C26_take_partial.
(** The remaining items do not keep their order. *)
Theorem C26_order_refuted : ~ (forall (t : tag unit) k, t_items (snd (take k t)) = without_key k (t_items t)).
Proof. intro H. specialize (H (mkTag Id3v2 [] [ar1; ar2; tt1] None) KTrackTitle). vm_compute in H. discriminate. Qed.
Print Assumptions C26_order_refuted.
Definition second_only (n : N) (_ : tag_item) : bool * N := (n =? 1, n + 1).
Example C26_ex : take_filter KTrackTitle second_only 0 (mkTag Id3v2 [] [tt1; ar1; tt2; ar2] None : tag unit) =
    ([tt2], mkTag Id3v2 [] [ar1; tt1; ar2] None) /\
  take KTrackTitle (mkTag Id3v2 [] [ar1; ar2; tt1; tt2] None : tag unit) = ([tt1; tt2], mkTag Id3v2 [] [ar1; ar2] None) /\
  take KTrackTitle (mkTag Id3v2 [] [ar1; ar2; tt1] None : tag unit) = ([tt1], mkTag Id3v2 [] [ar2; ar1] None).
Proof. vm_compute. repeat split. Qed.

(** C27 *)
Inductive kept (P : tag_item -> Prop) : list tag_item -> list tag_item -> Prop :=
| kept_nil : kept P [] []
| kept_keep i l l' : P i -> kept P l l' -> kept P (i :: l) (i :: l')
| kept_drop i l l' : ~ P i -> kept P l l' -> kept P (i :: l) l'.
Lemma filter_kept : forall f (P : tag_item -> Prop), (forall i, f i = true <-> P i) -> forall l, kept P l (filter f l).
Proof.
  intros f P H. induction l; cbn [filter]. constructor. destruct (f a) eqn:E; constructor; auto. now apply H. rewrite <- H. congruence.
Qed.
Lemma kept_all : forall P l l', kept P l l' -> Forall P l'.
Proof. induction 1; auto. Qed.
Theorem C27_re_map : forall C tt (t : tag C),
  kept (fun i => supported tt (it_key i)) (t_items t) (t_items (re_map tt t)) /\
  t_type (re_map tt t) = tt /\ t_pictures (re_map tt t) = t_pictures t /\ t_companion (re_map tt t) = None /\
  re_map tt (re_map tt t) = re_map tt t /\
  (Forall (fun i => supported tt (it_key i)) (t_items t) -> t_items (re_map tt t) = t_items t).
Proof.
  intros. assert (K : kept (fun i => supported tt (it_key i)) (t_items t) (t_items (re_map tt t))).
  { apply filter_kept. intro. apply supports_iff. }
  split; [exact K|]. do 3 (split; [reflexivity|]).
  assert (F : forall l, Forall (fun i => supported tt (it_key i)) l -> filter (fun i => supports tt (it_key i)) l = l).
  { induction 1 as [|x l X _ IH]; auto. cbn [filter]. apply supports_iff in X. rewrite X. congruence. }
  split. 2: exact (F _).
  unfold re_map, retain in *. cbn [t_items t_type t_pictures t_companion with_items] in *. f_equal. apply F. eapply kept_all, K.
Qed.
Print Assumptions C27_re_map.
Example C27_ex : re_map Id3v1 (mkTag Id3v2 [] [tt1; new_item KComposer (VText ($"c")); ar1] (Some tt) : tag unit) = mkTag Id3v1 [] [tt1; ar1] None.
Proof. reflexivity. Qed.

(** C55: [TagItem::new_checked] accepts what [Tag::insert] accepts. *)
Theorem C55_new_checked_partial : forall C (t : tag C) k v, t_type t <> Id3v1 ->
  new_checked (t_type t) k v = if fst (insert (new_item k v) t) then Some (new_item k v) else None.
Proof.
  intros. unfold new_checked, insert, supports. cbn [it_key new_item]. destruct (t_type t); cbn [tt_eqb]; try congruence; destruct (map_key _ k); reflexivity.
Qed.
Print Assumptions C55_new_checked_partial.
Theorem C55_id3v1_never : forall k v, new_checked Id3v1 k v = None.
Proof. intros. unfold new_checked. destruct k; reflexivity. Qed.
Print Assumptions C55_id3v1_never.
Theorem C55_new_checked_refuted : ~ (forall (t : tag unit) k v,
  new_checked (t_type t) k v = if fst (insert (new_item k v) t) then Some (new_item k v) else None).
Proof. intro H. specialize (H (tag_new Id3v1) KTrackTitle (VText [])). discriminate. Qed.
Print Assumptions C55_new_checked_refuted.
Example C55_ex : new_checked Id3v2 KTrackTitle (VText ($"one")) = Some tt1 /\ new_checked Id3v2 KMusicBrainzRecordingId (VText []) = None /\
  new_checked Id3v1 KTrackTitle (VText ($"one")) = None /\ fst (insert tt1 (tag_new Id3v1 : tag unit)) = true.
Proof. repeat split. Qed.

(** C63: every history of safe operations keeps only supported items. *)
Inductive op := OInsert (i : tag_item) | OPush (i : tag_item) | OInsertText (k : item_key) (s : str) | ORemoveKey (k : item_key)
  | ORetain (f : tag_item -> bool) | ORemoveEmpty | OTake (k : item_key) | OTakeFilter (k : item_key) (f : N -> tag_item -> bool * N)
  | OTakeStrings (k : item_key) | OReMap (x : tag_type) | OSetDate (d : timestamp) | ORemoveDate | OSetNumber (k : item_key) (n : N)
  | OPushPicture (p : picture) | OSetPicture (n : N) (p : picture) | ORemovePictureType (p : pic_type) | OClear.
Definition step {C} (t : tag C) (o : op) : tag C :=
  match o with
  | OInsert i => snd (insert i t) | OPush i => snd (push i t) | OInsertText k s => snd (insert_text k s t)
  | ORemoveKey k => remove_key k t | ORetain f => retain f t | ORemoveEmpty => remove_empty t | OTake k => snd (take k t)
  | OTakeFilter k f => snd (take_filter k f 0 t) | OTakeStrings k => snd (take_strings k t) | OReMap x => re_map x t
  | OSetDate d => set_date d t | ORemoveDate => remove_date t | OSetNumber k n => set_number k n t
  | OPushPicture p => push_picture p t | OSetPicture n p => set_picture n p t | ORemovePictureType p => remove_picture_type p t
  | OClear => clear t
  end.
Definition well_formed {C} (t : tag C) : Prop := Forall (fun i => supported (t_type t) (it_key i)) (t_items t).
Lemma wf_insert : forall C (t : tag C) i, well_formed t -> well_formed (snd (insert i t)) /\ t_type (snd (insert i t)) = t_type t.
Proof.
  intros C t i W. unfold insert. destruct (supports _ _) eqn:S; cbn [snd]; auto. split; auto. unfold well_formed, insert_unchecked in *.
  cbn [t_items with_items t_type]. apply Forall_app. split. apply incl_Forall with (2 := W). apply incl_filter. constructor; auto. now apply supports_iff.
Qed.
Lemma wf_filter : forall C (t : tag C) f, well_formed t -> well_formed (with_items t (filter f (t_items t))).
Proof. intros. unfold well_formed in *. cbn [t_items with_items t_type]. apply incl_Forall with (2 := H). apply incl_filter. Qed.
Lemma selected_incl : forall St k (f : St -> tag_item -> bool * St) l s, incl (snd (selected k f s l)) l.
Proof.
  induction l as [|a l IH]; intros s. apply incl_refl. cbn [selected]. destruct (ik_eqb (it_key a) k).
  - specialize (IH (snd (f s a))). destruct (selected k f (snd (f s a)) l) as [x y]. destruct (fst (f s a)); cbn [snd] in *; intros z Z; [right; auto|].
    destruct Z; [left|right]; auto.
  - specialize (IH s). destruct (selected k f s l) as [x y]. cbn [snd] in *. intros z [Z|Z]; [left|right]; auto.
Qed.
Lemma wf_take : forall C (t : tag C) St k (f : St -> tag_item -> bool * St) s, well_formed t -> well_formed (snd (take_filter k f s t)).
Proof.
  intros. destruct (C26_take_filter_partial C St k f s t) as (t' & E & P & T & _). rewrite E. cbn [snd]. unfold well_formed in *. rewrite T.
  apply incl_Forall with (2 := H). intros x X. apply (Permutation_in x P) in X. eapply selected_incl, X.
Qed.
Theorem C63_supported_items : forall C tt (ops : list op), well_formed (fold_left step ops (tag_new tt : tag C)).
Proof.
  intros. assert (G : forall ops (t : tag C), well_formed t -> well_formed (fold_left step ops t)).
  { clear. induction ops as [|o ops IH]; intros t W; auto. cbn [fold_left]. apply IH. destruct o; cbn [step].
    1,3: now apply wf_insert.
    - unfold push. destruct (supports _ _) eqn:S; cbn [snd]; auto. unfold well_formed, push_unchecked in *. cbn [t_items with_items t_type].
      apply Forall_app. split; auto. constructor; auto. now apply supports_iff.
    - now apply wf_filter.
    - now apply wf_filter.
    - now apply wf_filter.
    - now apply wf_take.
    - now apply wf_take.
    - unfold take_strings. pose proof (wf_take C t unit k (fun _ _ => (true, Coq.Init.Datatypes.tt)) Coq.Init.Datatypes.tt W) as X.
      unfold take. destruct (take_filter _ _ _ _). exact X.
    - destruct (C27_re_map C x t) as (K & T & _). unfold well_formed. rewrite T. eapply kept_all, K.
    - unfold set_date, insert_text. apply wf_insert. now apply wf_filter.
    - unfold remove_date. apply wf_filter. now apply wf_filter.
    - now apply wf_insert.
    - exact W.
    - unfold set_picture. destruct (_ <=? _); exact W.
    - exact W.
    - constructor. }
  apply G. constructor.
Qed.
Print Assumptions C63_supported_items.
Example C63_ex : t_items (fold_left step [OInsert tt1; OPush ar1; OPush (new_item KComposer (VText [])); OReMap Id3v1; OPush (new_item KComposer (VText []));
  OSetNumber KTrackNumber 7] (tag_new RiffInfo : tag unit)) = [tt1; ar1; new_item KTrackNumber (VText ($"7"))].
Proof. reflexivity. Qed.

(** C64: accessors. *)
Lemma get_string_insert : forall C (t : tag C) k s k', supported (t_type t) k ->
  get_string (snd (insert_text k s t)) k' = if ik_eqb k k' then Some s else get_string t k'.
Proof.
  intros C t k s k' S. destruct (C25_insert C t (new_item k (VText s))) as [H _]. destruct (H S) as (t' & E & G & _ & _ & O & _).
  unfold insert_text, get_string. rewrite E. cbn [snd it_key new_item] in *. destruct (ik_dec k k') as [<-|N].
  - now rewrite G, ik_eqb_refl.
  - rewrite ik_eqb_neq by auto. destruct (O k') as [-> _]; auto.
Qed.
Theorem C64_text : forall C (t : tag C) k s k', supported (t_type t) k ->
  get_string (snd (insert_text k s t)) k = Some s /\ get_string (remove_key k t) k = None /\
  (k' <> k -> get_string (snd (insert_text k s t)) k' = get_string t k' /\ get_string (remove_key k t) k' = get_string t k').
Proof.
  intros C t k s k' S. rewrite !get_string_insert by auto. rewrite ik_eqb_refl. split; auto. unfold get_string.
  destruct (C25_remove_key C t k (new_item k (VText s))) as (G & _ & _ & O & _). rewrite G. split; auto. intro N. rewrite ik_eqb_neq, O by auto. auto.
Qed.
Print Assumptions C64_text.
Theorem C64_number : forall C (t : tag C) k n, supported (t_type t) k -> n <= U32_MAX -> get_u32 (set_number k n t) k = Some n.
Proof. intros. unfold get_u32, set_number. rewrite get_string_insert, ik_eqb_refl by auto. now apply parse_uint_to_dec. Qed.
Print Assumptions C64_number.
Lemma display_ascii : forall d, Forall (fun c => c < 128) (ts_display d).
Proof.
  intros d.
  assert (D : forall n, Forall (fun c => c < 128) (to_dec n)). { intro n. destruct (to_dec_spec n) as (F & _). eapply Forall_impl; [|exact F]. intros c H. unfold is_digit in H. lia. }
  assert (P : forall w n, Forall (fun c => c < 128) (pad w n)). { intros. unfold pad. apply Forall_app. split; auto. apply Forall_forall. intros x X. apply repeat_spec in X. subst. lia. }
  assert (K : forall c l, c < 128 -> Forall (fun c => c < 128) l -> Forall (fun c => c < 128) (c :: l)) by (intros; now constructor).
  unfold ts_display. apply Forall_app. split; [apply P|].
  destruct (ts_month d) as [mo|]; [|constructor]. apply K; [lia|]. apply Forall_app. split; [apply P|].
  destruct (ts_day d) as [dd|]; [|constructor]. apply K; [lia|]. apply Forall_app. split; [apply P|].
  destruct (ts_hour d) as [h|]; [|constructor]. apply K; [lia|]. apply Forall_app. split; [apply P|].
  destruct (ts_minute d) as [mi|]; [|constructor]. apply K; [lia|]. apply Forall_app. split; [apply P|].
  destruct (ts_second d) as [se|]; [|constructor]. apply K; [lia|]. apply P.
Qed.
Theorem C64_date_partial : forall C (t : tag C) d, supported (t_type t) KRecordingDate -> ts_verify d = Ok tt ->
  tag_date (set_date d t) = Some d /\ get (set_date d t) KYear = None /\
  tag_date (remove_date t) = None /\ (forall k, k <> KYear -> k <> KRecordingDate -> get (set_date d t) k = get t k).
Proof.
  intros C t d S V. pose proof (proj1 (C18_roundtrip d Relaxed V)) as R.
  set (u := remove_key KYear t). assert (TU : t_type u = t_type t) by reflexivity.
  assert (SU : supported (t_type u) KRecordingDate) by (rewrite TU; auto).
  split; [|split; [|split]].
  - unfold tag_date, set_date. rewrite get_string_insert, ik_eqb_refl by auto. rewrite utf8_ascii by apply display_ascii. now rewrite R.
  - unfold set_date, insert_text. destruct (C25_insert C u (new_item KRecordingDate (VText (ts_display d)))) as [H _].
    destruct (H SU) as (t' & E & _ & _ & _ & O & _). fold u. rewrite E. cbn [snd]. destruct (O KYear) as [-> _]. discriminate. apply C25_remove_key. exact tt1.
  - unfold tag_date, remove_date, get_string. fold u. rewrite (proj1 (C25_remove_key C u KRecordingDate tt1)).
    destruct (C25_remove_key C u KRecordingDate tt1) as (_ & _ & _ & O & _). rewrite O by discriminate. unfold u.
    now rewrite (proj1 (C25_remove_key C t KYear tt1)).
  - intros k K1 K2. unfold set_date, insert_text. fold u. destruct (C25_insert C u (new_item KRecordingDate (VText (ts_display d)))) as [H _].
    destruct (H SU) as (t' & E & _ & _ & _ & O & _). rewrite E. cbn [snd]. destruct (O k) as [-> _]; auto.
    unfold u. destruct (C25_remove_key C t KYear tt1) as (_ & _ & _ & O' & _). auto.
Qed.
Print Assumptions C64_date_partial.
(** The date accessor accepts timestamps that are not valid, and these do not come back. *)
Theorem C64_date_refuted : ~ (forall (t : tag unit) d, supported (t_type t) KRecordingDate -> tag_date (set_date d t) = Some d).
Proof.
  intro H. specialize (H (tag_new Id3v2) (mkTs 2024 None (Some 5) None None None)). vm_compute in H.
  assert (X : exists s : str, Some [84; 68; 82; 67] = Some s) by eauto. specialize (H X). discriminate.
Qed.
Print Assumptions C64_date_refuted.
(** Which accessors have an effect for which tag type. *)
Theorem C64_support : forall tt,
  Forall (supported tt) [KTrackTitle; KTrackArtist; KComment] /\
  (tt <> AiffText -> Forall (supported tt) [KAlbumTitle; KGenre; KTrackNumber; KRecordingDate]) /\
  (tt <> AiffText -> tt <> Id3v1 -> supported tt KTrackTotal) /\
  (In tt [Ape; Id3v2; Mp4Ilst; VorbisComments] <-> supported tt KDiscNumber) /\
  (In tt [Ape; Id3v2; Mp4Ilst; VorbisComments] <-> supported tt KDiscTotal) /\
  (tt = AiffText -> Forall (fun k => ~ supported tt k) [KAlbumTitle; KGenre; KTrackNumber; KRecordingDate; KTrackTotal]) /\
  ~ supported Id3v1 KTrackTotal.
Proof.
  intro tt. assert (D : forall k, (~ supported tt k) <-> supports tt k = false).
  { intro k. rewrite <- supports_iff. destruct (supports tt k); intuition congruence. }
  rewrite !Forall_cons_iff, !D, <- !supports_iff. destruct tt; vm_compute; intuition (try discriminate; try constructor).
Qed.
Print Assumptions C64_support.
Example C64_ex : tag_date (set_date (mkTs 2024 (Some 6) None None None None) (snd (insert_text KYear ($"1999") (tag_new Ape : tag unit)))) =
    Some (mkTs 2024 (Some 6) None None None None) /\
  get_u32 (set_number KTrackNumber 12 (tag_new Id3v2 : tag unit)) KTrackNumber = Some 12 /\
  set_number KTrackNumber 12 (tag_new AiffText : tag unit) = tag_new AiffText.
Proof. vm_compute. repeat split. Qed.

(** C66: a Tag saved as ID3v1 and a Tag converted to Id3v1Tag give the same fields. *)
Definition one_text {C} (t : tag C) (k : item_key) : Prop :=
  with_key k (t_items t) = [] \/ exists i s, with_key k (t_items t) = [i] /\ it_value i = VText s.
Lemma filter_perm : forall (f : tag_item -> bool) l l', Permutation l l' -> Permutation (filter f l) (filter f l').
Proof. induction 1; cbn [filter]; auto. destruct (f x); auto. destruct (f x), (f y); auto. constructor. eapply Permutation_trans; eauto. Qed.
Lemma perm_one : forall C (t t' : tag C) k k', k' <> k -> one_text t k' -> Permutation (t_items t') (without_key k (t_items t)) ->
  with_key k' (t_items t') = with_key k' (t_items t).
Proof.
  intros C t t' k k' N O P.
  assert (Q : Permutation (with_key k' (t_items t')) (with_key k' (t_items t))).
  { rewrite <- (with_other k k' (t_items t)) by auto. now apply filter_perm. }
  destruct O as [O|(i & s & O & _)]; rewrite O in *. now apply Permutation_sym, Permutation_nil in Q. apply Permutation_sym in Q. now apply Permutation_length_1_inv in Q.
Qed.
Lemma take_strings_one : forall C (t : tag C) k, one_text t k -> exists t', take_strings k t = (match get_string t k with Some s => [s] | None => [] end, t') /\
  (forall k', k' <> k -> one_text t k' -> with_key k' (t_items t') = with_key k' (t_items t)).
Proof.
  intros C t k O. unfold take_strings. destruct (C26_take_partial C k t) as (t' & E & P & _). rewrite E. exists t'. split.
  - f_equal. unfold get_string. rewrite get_hd. destruct O as [->|(i & s & -> & V)]; [reflexivity|]. cbn [filter_map hd_error]. rewrite V. reflexivity.
  - intros. eapply perm_one; eauto.
Qed.
Lemma same_items : forall C (t t' : tag C) k, with_key k (t_items t') = with_key k (t_items t) -> get_string t' k = get_string t k /\ (one_text t k -> one_text t' k).
Proof. intros. unfold get_string, one_text. rewrite !get_hd, H. auto. Qed.
Definition V1_KEYS := [KTrackTitle; KTrackArtist; KAlbumTitle; KComment; KTrackNumber; KGenre; KYear; KRecordingDate].
Theorem C66_same_fields_partial : forall C (t : tag C), Forall (one_text t) V1_KEYS -> v1_of_tag t = v1_ref_of_tag t.
Proof.
  intros C t F. unfold v1_of_tag, v1_ref_of_tag.
  assert (ST : forall (t0 : tag C) k, Forall (one_text t0) V1_KEYS -> In k V1_KEYS -> exists t', take_strings k t0 = (match get_string t0 k with Some s => [s] | None => [] end, t') /\
    (forall k', In k' V1_KEYS -> k' <> k -> get_string t' k' = get_string t0 k' /\ one_text t' k')).
  { intros t0 k F0 I. rewrite Forall_forall in F0. destruct (take_strings_one C t0 k (F0 _ I)) as (t' & E & O). exists t'. split; auto.
    intros k' I' N. specialize (O k' N (F0 _ I')). apply same_items in O as [O1 O2]. auto. }
  (* after taking a key its items are gone *)
  assert (GO : forall (t0 : tag C) k, let t' := snd (take_strings k t0) in one_text t' k).
  { intros t0 k. unfold take_strings. destruct (C26_take_partial C k t0) as (t' & E & P & _). rewrite E. left.
    assert (X : Forall (fun i => ik_eqb (it_key i) k = false) (t_items t')).
    { apply Forall_forall. intros x X. apply (Permutation_in x P) in X. apply filter_In in X as [_ X]. destruct (ik_eqb _ _); auto; discriminate. }
    unfold with_key. cbn [snd]. clear P E. induction X as [|x l X _ IH]; auto. cbn [filter]. rewrite X. exact IH. }
  assert (ST2 : forall (t0 : tag C) k, Forall (one_text t0) V1_KEYS -> In k V1_KEYS -> exists t', take_strings k t0 = (match get_string t0 k with Some s => [s] | None => [] end, t') /\
    (forall k', In k' V1_KEYS -> k' <> k -> get_string t' k' = get_string t0 k') /\ Forall (one_text t') V1_KEYS).
  { intros t0 k F0 I. destruct (ST t0 k F0 I) as (t' & E & O). exists t'. split; auto. split. intros. now apply O.
    apply Forall_forall. intros k' I'. destruct (ik_dec k' k) as [->|N]. specialize (GO t0 k). cbn zeta in GO. rewrite E in GO. exact GO. now apply O. }
  assert (Y : forall a b : tag C, get_string a KYear = get_string b KYear -> get_string a KRecordingDate = get_string b KRecordingDate -> v1_year_of a = v1_year_of b).
  { intros a b E1 E2. unfold v1_year_of, tag_date. now rewrite E1, E2. }
  assert (I : forall k, existsb (ik_eqb k) V1_KEYS = true -> In k V1_KEYS).
  { intros k E. apply existsb_exists in E as (x & X & E). apply ik_eqb_eq in E. congruence. }
  destruct (ST2 t KTrackTitle F (I KTrackTitle eq_refl)) as (t1 & E1 & O1 & F1). rewrite E1. cbn iota.
  destruct (ST2 t1 KTrackArtist F1 (I KTrackArtist eq_refl)) as (t2 & E2 & O2 & F2). rewrite E2. cbn iota.
  destruct (ST2 t2 KAlbumTitle F2 (I KAlbumTitle eq_refl)) as (t3 & E3 & O3 & F3). rewrite E3. cbn iota.
  destruct (ST2 t3 KComment F3 (I KComment eq_refl)) as (t4 & E4 & O4 & F4). rewrite E4. cbn iota.
  assert (H : forall o : option str, hd_error match o with Some s => [s] | None => [] end = o) by (intros [|]; reflexivity).
  rewrite !H. unfold v1_track_of, v1_genre_of.
  rewrite (O4 KTrackNumber), (O4 KGenre), (O3 KTrackNumber), (O3 KGenre), (O3 KComment), (O2 KTrackNumber), (O2 KGenre), (O2 KComment), (O2 KAlbumTitle),
    (O1 KTrackNumber), (O1 KGenre), (O1 KComment), (O1 KAlbumTitle), (O1 KTrackArtist) by (discriminate || (apply I; reflexivity)).
  f_equal. apply Y; rewrite O3, O2, O1 by (discriminate || (apply I; reflexivity)); reflexivity.
Qed.
Print Assumptions C66_same_fields_partial.
(** Two artists before the title: converting takes the second artist, because taking the title reorders the rest. *)
Theorem C66_first_artist_refuted :
  ~ (forall t : tag unit, Forall (fun i => exists s, it_value i = VText s) (t_items t) -> v1_artist (v1_of_tag t) = get_string t KTrackArtist).
Proof.
  intro H. specialize (H (mkTag Id3v1 [] [ar1; ar2; tt1] None)). vm_compute in H.
  assert (X : Some [98] = Some [97 : N]). { apply H. repeat (constructor; [eexists; reflexivity|]). constructor. } discriminate.
Qed.
Print Assumptions C66_first_artist_refuted.
Theorem C66_locator_refuted : ~ (forall t : tag unit, Forall (fun i => with_key (it_key i) (t_items t) = [i]) (t_items t) -> v1_of_tag t = v1_ref_of_tag t).
Proof.
  intro H. specialize (H (mkTag Id3v1 [] [new_item KTrackTitle (VLocator ($"x"))] None)). vm_compute in H.
  assert (X : Some [120 : N] = None). { assert (Y := H ltac:(constructor; [reflexivity|constructor])). congruence. } discriminate.
Qed.
Print Assumptions C66_locator_refuted.
Example C66_ex : v1_of_tag (mkTag Id3v1 [] [ar1; tt1; new_item KGenre (VText ($"Rock")); new_item KRecordingDate (VText ($"2001-02-03"))] None : tag unit) =
  mkV1 (Some ($"one")) (Some ($"a")) None (Some 2001) None None (Some 17).
Proof. vm_compute. reflexivity. Qed.

(** C65: Id3v1Tag -> Tag -> Id3v1Tag. *)
Definition v1_in_range (v : id3v1) : Prop :=
  (forall y, v1_year v = Some y -> y <= 65535) /\ (forall n, v1_track v = Some n -> n <= 255) /\ (forall g, v1_genre v = Some g -> g < 192).
Lemma genre_pos_at : forall g, g < 192 -> exists s, nth_error GENRES (N.to_nat g) = Some s /\ genre_position 0 GENRES s = Some g.
Proof.
  intros g L.
  assert (A : allN 192 0 (fun g => match nth_error GENRES (N.to_nat g) with
     | Some s => match genre_position 0 GENRES s with Some p => p =? g | None => false end | None => false end) = true) by (vm_compute; reflexivity).
  pose proof (allN_spec _ _ _ A g ltac:(lia)) as X. cbn beta in X. destruct (nth_error GENRES (N.to_nat g)) as [s|]; [|discriminate].
  exists s. split; auto. destruct (genre_position 0 GENRES s) as [p|]; [|discriminate]. f_equal. lia.
Qed.
Definition holds {C} (t : tag C) (m : item_key -> option str) : Prop :=
  t_type t = Id3v1 /\ forall k, with_key k (t_items t) = match m k with Some s => [new_item k (VText s)] | None => [] end.
Definition upd (m : item_key -> option str) (k : item_key) (o : option str) : item_key -> option str :=
  fun k' => if ik_eqb k k' then match o with Some s => Some s | None => m k' end else m k'.
Lemma holds_add : forall C (t : tag C) m k o, supported Id3v1 k -> holds t m -> holds (add_text k o t) (upd m k o).
Proof.
  intros C t m k o S [T H]. destruct o as [s|]; unfold upd; cbn [add_text].
  - destruct (C25_insert C t (new_item k (VText s))) as [X _]. cbn [it_key new_item] in X. rewrite T in X.
    destruct (X S) as (t' & E & _ & W & _ & O & T' & _). unfold insert_text. rewrite E. cbn [snd]. split; auto. intro k'.
    destruct (ik_dec k k') as [<-|N]. now rewrite ik_eqb_refl, W. rewrite ik_eqb_neq by auto. destruct (O k') as [_ ->]; auto.
  - split; auto. intro k'. rewrite H. destruct (ik_eqb k k'); reflexivity.
Qed.
Lemma holds_string : forall C (t : tag C) m k, holds t m -> get_string t k = m k.
Proof. intros C t m k [_ H]. unfold get_string. rewrite get_hd, H. destruct (m k); reflexivity. Qed.
Lemma push_insert : forall C (t : tag C) k s, supported Id3v1 k -> t_type t = Id3v1 -> with_key k (t_items t) = [] ->
  push_unchecked (new_item k (VText s)) t = add_text k (Some s) t.
Proof.
  intros C t k s S T W. cbn [add_text]. unfold insert_text, insert. cbn [it_key new_item]. apply supports_iff in S. rewrite T, S. cbn [snd].
  unfold push_unchecked, insert_unchecked. do 2 f_equal. cbn [it_key new_item]. unfold with_key in W. induction (t_items t) as [|x l IH]; auto.
  cbn [filter] in *. destruct (ik_eqb (it_key x) k); [discriminate|]. cbn [negb]. f_equal. auto.
Qed.
Theorem C65_id3v1_roundtrip_partial : forall C v, v1_in_range v ->
  v1_of_tag (tag_of_v1 v : tag C) = v /\ v1_ref_of_tag (tag_of_v1 v : tag C) = v /\
  t_type (tag_of_v1 v : tag C) = Id3v1 /\ t_pictures (tag_of_v1 v : tag C) = [].
Proof.
  intros C v (RY & RT & RG).
  set (gs := match v1_genre v with Some g => nth_error GENRES (N.to_nat g) | None => None end).
  assert (E : tag_of_v1 v = add_text KGenre gs (add_text KTrackNumber (option_map to_dec (v1_track v)) (add_text KComment (v1_comment v)
     (add_text KYear (option_map to_dec (v1_year v)) (add_text KAlbumTitle (v1_album v) (add_text KTrackArtist (v1_artist v)
     (add_text KTrackTitle (v1_title v) (tag_new Id3v1 : tag C))))))) /\
    holds (tag_of_v1 v : tag C) (upd (upd (upd (upd (upd (upd (upd (fun _ => None) KTrackTitle (v1_title v)) KTrackArtist (v1_artist v)) KAlbumTitle (v1_album v))
     KYear (option_map to_dec (v1_year v))) KComment (v1_comment v)) KTrackNumber (option_map to_dec (v1_track v))) KGenre gs)).
  { assert (SU : forall k, supports Id3v1 k = true -> supported Id3v1 k) by (intros; now apply supports_iff).
    assert (H0 : holds (tag_new Id3v1 : tag C) (fun _ => None)) by (split; auto).
    unfold tag_of_v1. cbv zeta.
    assert (H1 := holds_add _ _ _ KTrackTitle (v1_title v) (SU KTrackTitle eq_refl) H0).
    assert (H2 := holds_add _ _ _ KTrackArtist (v1_artist v) (SU KTrackArtist eq_refl) H1).
    assert (H3 := holds_add _ _ _ KAlbumTitle (v1_album v) (SU KAlbumTitle eq_refl) H2).
    assert (H4 := holds_add _ _ _ KYear (option_map to_dec (v1_year v)) (SU KYear eq_refl) H3).
    assert (H5 := holds_add _ _ _ KComment (v1_comment v) (SU KComment eq_refl) H4).
    assert (H6 := holds_add _ _ _ KTrackNumber (option_map to_dec (v1_track v)) (SU KTrackNumber eq_refl) H5).
    assert (H7 := holds_add _ _ _ KGenre gs (SU KGenre eq_refl) H6).
    match goal with |- ?x = ?y /\ _ => assert (EE : x = y); [|split; [exact EE|rewrite EE; exact H7]] end.
    assert (P : forall n (t : tag C), t_type t = Id3v1 -> with_key KTrackNumber (t_items t) = [] ->
      match n with Some n => push_unchecked (new_item KTrackNumber (VText (to_dec n))) t | None => t end = add_text KTrackNumber (option_map to_dec n) t).
    { intros [n|] t T W; [|reflexivity]. cbn [option_map]. apply push_insert; auto. }
    rewrite P. unfold gs. destruct (v1_genre v) as [g|]; [|reflexivity]. destruct (nth_error GENRES (N.to_nat g)); reflexivity.
    apply H5. destruct H5 as [_ ->]. reflexivity. }
  destruct E as [E H].
  assert (R : v1_ref_of_tag (tag_of_v1 v : tag C) = v).
  { unfold v1_ref_of_tag, v1_year_of, v1_track_of, v1_genre_of, tag_date. rewrite !(holds_string _ _ _ _ H).
    unfold upd. repeat match goal with |- context[ik_eqb ?a ?b] => let r := eval vm_compute in (ik_eqb a b) in change (ik_eqb a b) with r; cbn iota end.
    destruct v as [a b c y d n g]; cbn [v1_title v1_artist v1_album v1_year v1_comment v1_track v1_genre option_map] in *.
    replace (match a with Some s => Some s | None => None end) with a by (destruct a; auto).
    replace (match b with Some s => Some s | None => None end) with b by (destruct b; auto).
    replace (match c with Some s => Some s | None => None end) with c by (destruct c; auto).
    replace (match d with Some s => Some s | None => None end) with d by (destruct d; auto). f_equal.
    - destruct y as [y|]; [|reflexivity]. cbn [option_map]. rewrite parse_uint_to_dec. reflexivity. apply RY. reflexivity.
    - destruct n as [n|]; [|reflexivity]. cbn [option_map]. rewrite parse_uint_to_dec. reflexivity. apply RT. reflexivity.
    - destruct g as [g|]; [|reflexivity]. specialize (RG _ eq_refl). destruct (genre_pos_at g RG) as (s & N1 & N2). unfold gs. rewrite N1, N2.
      rewrite N.mod_small by lia. reflexivity. }
  split; [|split; [exact R|]].
  - rewrite C66_same_fields_partial. exact R. apply Forall_forall. intros k _. unfold one_text. destruct H as [_ H]. rewrite H.
    match goal with |- context[match ?o with Some _ => _ | None => _ end] => destruct o as [s|]; [right|left; reflexivity] end. eexists _, _. split; reflexivity.
  - split. apply H. rewrite E. clear. assert (G : forall k o (t : tag C), t_pictures (add_text k o t) = t_pictures t).
    { intros k [s|] t; [|reflexivity]. cbn [add_text]. unfold insert_text, insert. destruct (supports _ _); reflexivity. }
    now rewrite !G.
Qed.
Print Assumptions C65_id3v1_roundtrip_partial.
Theorem C65_unrestricted_refuted : ~ (forall v, v1_of_tag (tag_of_v1 v : tag unit) = v).
Proof. intro H. specialize (H (mkV1 None None None None None None (Some 200))). vm_compute in H. discriminate. Qed.
Print Assumptions C65_unrestricted_refuted.
Definition v1_sample2 := mkV1 (Some ($"t")) None (Some ($"al")) (Some 1999) (Some ($"c")) (Some 7) (Some 17).
Example C65_ex : v1_in_range v1_sample2 /\ t_items (tag_of_v1 v1_sample2 : tag unit) =
  [new_item KTrackTitle (VText ($"t")); new_item KAlbumTitle (VText ($"al")); new_item KYear (VText ($"1999")); new_item KComment (VText ($"c"));
   new_item KTrackNumber (VText ($"7")); new_item KGenre (VText ($"Rock"))].
Proof. split. repeat split; intros x E; inversion E; lia. vm_compute. reflexivity. Qed.
