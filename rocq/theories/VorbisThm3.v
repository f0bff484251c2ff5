(** Property theorems for the conversion of Vorbis comments to and from [Tag] (C84, C85, C86). *)
From Coq Require Import Permutation.
From Verif Require Import BaseLemmas StrLemmas ItemKeyThm PictureThm TagThm VorbisModel VorbisThm VorbisThm2.

(** The keys whose values are stored as they are. *)
Definition plain_key (k : item_key) : Prop := k <> KFlagCompilation /\ k <> KPopularimeter /\ k <> KEncoderSoftware.
(** The field an item becomes, if the format has a name for it. *)
Inductive becomes : tag_item -> list (str * str) -> Prop :=
| becomes_text : forall i k s, map_key VorbisComments (it_key i) = Some k -> (it_value i = VText s \/ it_value i = VLocator s) -> becomes i [(k, s)]
| becomes_no_name : forall i, map_key VorbisComments (it_key i) = None -> becomes i []
| becomes_binary : forall i b, it_value i = VBinary b -> becomes i [].
Inductive all_become : list tag_item -> list (str * str) -> Prop :=
| ab_nil : all_become [] []
| ab_cons : forall i l a b, becomes i a -> all_become l b -> all_become (i :: l) (a ++ b).
(** The pictures with the information found in their data; the rest is dropped. *)
Inductive pics_become : list picture -> list (picture * pic_info) -> Prop :=
| pb_nil : pics_become [] []
| pb_keep : forall p i l r, info_from_picture p = Ok i -> pics_become l r -> pics_become (p :: l) ((p, i) :: r)
| pb_short : forall p l r, lenN (p_data p) < 8 -> pics_become l r -> pics_become (p :: l) r.

Lemma merge_pics_iff : forall l r, merge_pictures l = Ok r <-> pics_become l r.
Proof.
  assert (S : forall p e, info_from_picture p = Err e <-> lenN (p_data p) < 8 /\ e = PNotEnough).
  { intros. unfold info_from_picture. destruct (N.ltb_spec (lenN (p_data p)) 8). split; [intro X; inversion X; auto|intros [_ ->]; auto].
    split; [|lia]. destruct (list_eqb _ _). destruct (info_from_png _); discriminate. destruct (list_eqb _ _). destruct (info_from_jpeg _); discriminate. discriminate. }
  intros l r. split.
  - revert r. induction l as [|p l IH]; cbn [merge_pictures]; intros r H. inversion H; subst; constructor.
    destruct (info_from_picture p) eqn:E; try discriminate.
    + destruct (merge_pictures l); cbn [bind] in H; try discriminate. inversion H; subst. constructor; auto.
    + apply S in E as [E _]. apply pb_short; auto.
  - induction 1; cbn [merge_pictures]; auto.
    + now rewrite H, IHpics_become.
    + rewrite (proj2 (S p PNotEnough)) by auto. auto.
Qed.
Lemma merge_item_plain : forall custom i, plain_key (it_key i) -> merge_vc_item custom i = ref_vc_item i.
Proof.
  intros custom i (A & B & C). unfold merge_vc_item, ref_vc_item. destruct (value_into_string (it_value i)); auto.
  rewrite (ik_eqb_neq _ _ A). destruct (map_key VorbisComments (it_key i)); auto. now rewrite (ik_eqb_neq _ _ B).
Qed.
Lemma ref_becomes : forall i, becomes i (match ref_vc_item i with Some x => [x] | None => [] end).
Proof.
  intros. unfold ref_vc_item. destruct (it_value i) eqn:E; cbn [value_into_string].
  - destruct (map_key _ _) eqn:M; econstructor; eauto.
  - destruct (map_key _ _) eqn:M; econstructor; eauto.
  - eapply becomes_binary; eauto.
Qed.
Lemma becomes_fun : forall i a b, becomes i a -> becomes i b -> a = b.
Proof. intros i a b H H0. inversion H; subst; inversion H0; subst; auto; repeat match goal with X : _ \/ _ |- _ => destruct X end; congruence. Qed.
Lemma all_become_iff : forall l r, all_become l r <-> r = TagModel.filter_map ref_vc_item l.
Proof.
  intros l r. split.
  - induction 1; auto. cbn [TagModel.filter_map]. rewrite (becomes_fun _ _ _ H (ref_becomes i)). destruct (ref_vc_item i); cbn [app]; congruence.
  - intros ->. induction l as [|i l IH]; cbn [TagModel.filter_map]. constructor.
    pose proof (ab_cons i l _ _ (ref_becomes i) IH) as X. destruct (ref_vc_item i); exact X.
Qed.
Lemma filter_map_ext_in : forall A B (f g : A -> option B) l, (forall x, In x l -> f x = g x) -> TagModel.filter_map f l = TagModel.filter_map g l.
Proof. induction l; intros H; auto. cbn [TagModel.filter_map]. rewrite (H a) by now left. rewrite IHl by (intros; apply H; now right). reflexivity. Qed.
Lemma filter_map_perm : forall A B (f : A -> option B) l l', Permutation l l' -> Permutation (TagModel.filter_map f l) (TagModel.filter_map f l').
Proof.
  induction 1; cbn [TagModel.filter_map]; auto.
  - destruct (f x); auto.
  - destruct (f x), (f y); auto. constructor.
  - etransitivity; eauto.
Qed.

(** Nothing moves when there is nothing to take. *)
Lemma take_none : forall C k (t : tag C), with_key k (t_items t) = [] -> take k t = ([], t).
Proof.
  intros C k t H. unfold take, take_filter.
  assert (L : forall n m, take_loop n m 0 k (fun (_ : unit) (_ : tag_item) => (true, Coq.Init.Datatypes.tt)) Coq.Init.Datatypes.tt (t_items t) = (t_items t, O)).
  { induction n; intros m; cbn [take_loop]; auto. destruct (nth_error (t_items t) m) as [i|] eqn:E; auto.
    destruct (ik_eqb (it_key i) k) eqn:K; auto. exfalso. apply nth_error_In in E.
    assert (X : In i (with_key k (t_items t))) by (unfold with_key; apply filter_In; auto). rewrite H in X. destruct X. }
  rewrite L. cbn [firstn skipn]. destruct t; reflexivity.
Qed.
Lemma with_none : forall k l, Forall (fun i => it_key i <> k) l -> with_key k l = [].
Proof. induction 1; auto. unfold with_key. cbn [filter]. rewrite ik_eqb_neq by auto. exact IHForall. Qed.
Lemma without_all : forall k l, Forall (fun i => it_key i <> k) l -> without_key k l = l.
Proof. induction 1; auto. unfold without_key. cbn [filter]. rewrite ik_eqb_neq by auto. cbn [negb]. f_equal. exact IHForall. Qed.

(** C84: what is merged. The remainder of an earlier split comes first. *)
Theorem C84_merge_partial : forall C custom rem (t : tag C) items pics,
  Forall (fun i => plain_key (it_key i)) (t_items t) -> all_become (t_items t) items -> pics_become (t_pictures t) pics ->
  vc_merge custom rem t = Ok (mkVc (vc_vendor rem) (vc_items rem ++ items) (vc_pics rem ++ pics)).
Proof.
  intros C custom rem t items pics F A P. apply all_become_iff in A. apply merge_pics_iff in P. unfold vc_merge. rewrite take_none.
  2:{ apply with_none. eapply Forall_impl; [|exact F]. intros i (_ & _ & X). exact X. }
  rewrite P. cbn [bind]. f_equal. f_equal. f_equal. subst. apply filter_map_ext_in. intros i I. rewrite Forall_forall in F. apply merge_item_plain. auto.
Qed.
Print Assumptions C84_merge_partial.
(** An item with the encoder gives the vendor text; the fields are then in some order. *)
Theorem C84_encoder_partial : forall C custom rem (t : tag C) enc rest items pics,
  Permutation (t_items t) (enc :: rest) -> it_key enc = KEncoderSoftware -> Forall (fun i => plain_key (it_key i)) rest ->
  all_become rest items -> pics_become (t_pictures t) pics ->
  exists r, vc_merge custom rem t = Ok r /\ vc_vendor r = (match it_value enc with VText s => s | _ => vc_vendor rem end) /\
    Permutation (vc_items r) (vc_items rem ++ items) /\ vc_pics r = vc_pics rem ++ pics.
Proof.
  intros C custom rem t enc rest items pics PT KE F A P. apply all_become_iff in A. apply merge_pics_iff in P. unfold vc_merge.
  assert (NE : Forall (fun i => it_key i <> KEncoderSoftware) rest) by (eapply Forall_impl; [|exact F]; intros i (_ & _ & X); exact X).
  destruct (C26_take_partial C KEncoderSoftware t) as (t' & E & PP & _ & PI & _). rewrite E.
  assert (W : with_key KEncoderSoftware (t_items t) = [enc]).
  { pose proof (filter_perm (fun i => ik_eqb (it_key i) KEncoderSoftware) _ _ PT) as X. cbn [filter] in X. rewrite KE, ik_eqb_refl in X.
    change (filter _ rest) with (with_key KEncoderSoftware rest) in X. rewrite with_none in X by auto. apply Permutation_sym, Permutation_length_1_inv in X. exact X. }
  assert (WO : Permutation (t_items t') rest).
  { rewrite PP. unfold without_key. pose proof (filter_perm (fun i => negb (ik_eqb (it_key i) KEncoderSoftware)) _ _ PT) as X. cbn [filter] in X. rewrite KE, ik_eqb_refl in X.
    cbn [negb] in X. change (filter _ rest) with (without_key KEncoderSoftware rest) in X. rewrite without_all in X by auto. exact X. }
  rewrite W, PI, P. cbn [bind]. eexists. split; [reflexivity|]. cbn [vc_vendor vc_items vc_pics]. repeat split; auto.
  apply Permutation_app_head. rewrite (filter_map_perm _ _ _ _ _ WO). subst. erewrite filter_map_ext_in. reflexivity.
  intros i I. rewrite Forall_forall in F. apply merge_item_plain. auto.
Qed.
Print Assumptions C84_encoder_partial.
Definition tk (k : item_key) (s : str) : tag_item := new_item k (VText s).
Example C84_ex : vc_of_tag DefaultProvider (mkTag VorbisComments [] [tk KTrackTitle ($"t"); tk KEncoderSoftware ($"e"); tk KFlagCompilation ($"true")] None : tag unit) =
  Ok (mkVc ($"e") [($"TITLE", $"t"); ($"COMPILATION", $"1")] []).
Proof. vm_compute. reflexivity. Qed.
(** Finding: the order of several values of one field changes when there is an encoder. *)
Theorem C84_order_refuted : ~ (forall (t : tag unit) r, vc_of_tag DefaultProvider t = Ok r -> vc_get r ($"ARTIST") = get_string t KTrackArtist).
Proof.
  intro H. set (t := mkTag VorbisComments [] [tk KTrackArtist ($"a"); tk KTrackArtist ($"b"); tk KEncoderSoftware ($"e")] None : tag unit).
  assert (E : vc_of_tag DefaultProvider t = Ok (mkVc ($"e") [($"ARTIST", $"b"); ($"ARTIST", $"a")] [])) by (vm_compute; reflexivity).
  specialize (H _ _ E). vm_compute in H. discriminate.
Qed.
Print Assumptions C84_order_refuted.

(** C85: splitting and merging again *)
(** The field survives: it has no key in [Tag], or the name the key is written as. *)
Definition settled (i : str * str) : Prop :=
  (from_key VorbisComments (fst i) = None /\ starts_with RATING_PREFIX (fst i) = false) \/
  (exists ik, map_key VorbisComments ik = Some (fst i) /\ plain_key ik).
Lemma vc_key : forall ik k, map_key VorbisComments ik = Some k -> from_key VorbisComments k = Some ik.
Proof.
  intros ik k H. destruct (C23_tables _ _ _ H) as (k' & F & _ & [->|X]); auto. exfalso. revert X. unfold exceptions. cbn [In]. intuition congruence.
Qed.
Lemma split_settled : forall custom i, settled i ->
  (split_vc_item custom i = None) \/
  (exists ik, split_vc_item custom i = Some (tk ik (snd i)) /\ plain_key ik /\ map_key VorbisComments ik = Some (fst i)).
Proof.
  intros custom [k v] [[F S]|(ik & M & P)]; cbn [fst snd] in *.
  - left. cbn [split_vc_item]. now rewrite F, S.
  - right. exists ik. cbn [split_vc_item]. rewrite (vc_key _ _ M). auto.
Qed.
Lemma split_items : forall custom l, Forall settled l ->
  exists mapped, TagModel.filter_map (split_vc_item custom) l = mapped /\ Forall (fun i => plain_key (it_key i)) mapped /\
    exists fields, all_become mapped fields /\
    Permutation (filter (fun i => match split_vc_item custom i with Some _ => false | None => true end) l ++ fields) l.
Proof.
  induction 1 as [|i l S F (m & E & P & f & A & PE)].
  - exists []. repeat split; auto. exists []. split; constructor.
  - destruct (split_settled custom i S) as [N|(ik & N & PK & M)].
    + exists m. cbn [TagModel.filter_map filter]. rewrite N. repeat split; auto. exists f. split; auto. cbn [app]. now constructor.
    + exists (tk ik (snd i) :: m). cbn [TagModel.filter_map filter]. rewrite N. split; [congruence|]. split; [constructor; auto|].
      exists ([i] ++ f). split. { constructor; auto. destruct i as [k v]. eapply becomes_text. exact M. left. reflexivity. }
      cbn [app]. rewrite <- Permutation_middle. now constructor.
Qed.
Theorem C85_split_merge_partial : forall C custom t pics, Forall settled (vc_items t) -> pics_become (map fst (vc_pics t)) pics ->
  exists t', vc_merge custom (fst (vc_split (C := C) custom t)) (snd (vc_split (C := C) custom t)) = Ok t' /\
    vc_vendor t' = vc_vendor t /\ Permutation (vc_items t') (vc_items t) /\ vc_pics t' = pics.
Proof.
  intros C custom t pics S P. destruct (split_items custom _ S) as (m & E & PK & f & A & PE). unfold vc_split. cbn [fst snd]. rewrite E.
  assert (NE : existsb (fun i => ik_eqb (it_key i) KEncoderSoftware) m = false).
  { clear - PK. induction PK; auto. cbn [existsb]. destruct H as (_ & _ & H). rewrite ik_eqb_neq by auto. auto. }
  rewrite NE. set (enc := new_item KEncoderSoftware (VText (vc_vendor t))). set (rem := mkVc (vc_vendor t) _ []).
  destruct (C84_encoder_partial C custom rem (mkTag VorbisComments (map fst (vc_pics t)) (m ++ [enc]) None) enc m f pics) as (r & M & V & I & PP); auto.
  - cbn [t_items]. symmetry. apply Permutation_cons_append.
  - exists r. split; [exact M|]. split; [exact V|]. split; [|exact PP]. rewrite I. exact PE.
Qed.
Print Assumptions C85_split_merge_partial.
(** Findings: what is lost. The values of a field change places; the vendor is replaced by an ENCODER field, which is gone; a RATING
    without an address is gone; the stored dimensions of a picture are forgotten; a small picture is gone. *)
Definition round (t : vc) : res pic_error vc := vc_merge DefaultProvider (fst (vc_split (C := unit) DefaultProvider t)) (snd (vc_split (C := unit) DefaultProvider t)).
Theorem C85_order_refuted : ~ (forall t r, Forall settled (vc_items t) -> round t = Ok r -> vc_get r ($"ARTIST") = vc_get t ($"ARTIST")).
Proof.
  intro H. set (t := mkVc [] [($"ARTIST", $"a"); ($"ARTIST", $"b")] []).
  assert (S : Forall settled (vc_items t)).
  { constructor; [|constructor; [|constructor]]; right; exists KTrackArtist; (split; [vm_compute; reflexivity|repeat split; discriminate]). }
  assert (E : round t = Ok (mkVc [] [($"ARTIST", $"b"); ($"ARTIST", $"a")] [])) by (vm_compute; reflexivity).
  specialize (H _ _ S E). vm_compute in H. discriminate.
Qed.
Print Assumptions C85_order_refuted.
Theorem C85_encoder_refuted : ~ (forall t r, round t = Ok r -> vc_vendor r = vc_vendor t) /\
  ~ (forall t r, round t = Ok r -> vc_get r ($"ENCODER") = vc_get t ($"ENCODER")).
Proof.
  set (t := mkVc ($"libFLAC") [($"ENCODER", $"x"); ($"ENCODER", $"y")] []).
  assert (E : round t = Ok (mkVc ($"x") [] [])) by (vm_compute; reflexivity).
  split; intro H; specialize (H _ _ E); vm_compute in H; discriminate.
Qed.
Print Assumptions C85_encoder_refuted.
Theorem C85_rating_refuted : ~ (forall t r k, round t = Ok r -> vc_get t k <> None -> vc_get r k <> None).
Proof.
  intro H. assert (E : round (mkVc [] [($"RATING", $"80")] []) = Ok (mkVc [] [] [])) by (vm_compute; reflexivity).
  apply (H _ _ ($"RATING") E); vm_compute. discriminate. reflexivity.
Qed.
Print Assumptions C85_rating_refuted.
Theorem C85_pictures_refuted : ~ (forall t r, round t = Ok r -> vc_pics r = vc_pics t) /\ ~ (forall t r, round t = Ok r -> length (vc_pics r) = length (vc_pics t)).
Proof.
  set (t := mkVc [] [] [(mkPic POther None None [1; 2; 3; 4; 5; 6; 7; 8], mkInfo 5 6 7 8); (mkPic POther None None [1; 2; 3], info_default)]).
  assert (E : round t = Ok (mkVc [] [] [(mkPic POther None None [1; 2; 3; 4; 5; 6; 7; 8], info_default)])) by (vm_compute; reflexivity).
  split; intro H; specialize (H _ _ E); vm_compute in H; discriminate.
Qed.
Print Assumptions C85_pictures_refuted.
Example C85_ex : Forall settled [($"TITLE", $"t"); ($"MY KEY", $"x")] /\
  round (mkVc ($"v") [($"TITLE", $"t"); ($"MY KEY", $"x")] []) = Ok (mkVc ($"v") [($"MY KEY", $"x"); ($"TITLE", $"t")] []).
Proof.
  split; [|vm_compute; reflexivity]. constructor; [|constructor; [|constructor]].
  right. exists KTrackTitle. split; [vm_compute; reflexivity|repeat split; discriminate].
  left. split; vm_compute; reflexivity.
Qed.

(** C86: saving a [Tag] directly writes what its conversion would, for plain keys and pictures of at least eight bytes *)
Theorem C86_direct_partial : forall C custom (t : tag C), Forall (fun i => plain_key (it_key i)) (t_items t) ->
  Forall (fun p => 8 <= lenN (p_data p)) (t_pictures t) -> vc_ref_of_tag t = vc_of_tag custom t.
Proof.
  intros C custom t F P. unfold vc_of_tag, vc_merge, vc_ref_of_tag.
  assert (NE : Forall (fun i => it_key i <> KEncoderSoftware) (t_items t)) by (eapply Forall_impl; [|exact F]; intros i (_ & _ & X); exact X).
  rewrite take_none by now apply with_none. cbn [vc_vendor vc_items vc_pics vc_default app].
  assert (G : get_string t KEncoderSoftware = None). { unfold get_string. rewrite get_hd, with_none by auto. reflexivity. }
  rewrite G. rewrite (filter_map_ext_in _ _ (merge_vc_item custom) ref_vc_item).
  2:{ intros i I. rewrite Forall_forall in F. apply merge_item_plain. auto. }
  replace (ref_pictures (t_pictures t)) with (merge_pictures (t_pictures t)); auto.
  clear - P. induction P as [|p l L P IH]; auto. cbn [merge_pictures ref_pictures]. rewrite <- IH.
  destruct (info_from_picture p) as [i|e|] eqn:E.
  - reflexivity.
  - exfalso. revert E. unfold info_from_picture. destruct (N.ltb_spec (lenN (p_data p)) 8); [lia|].
    destruct (list_eqb _ _). destruct (info_from_png _); discriminate. destruct (list_eqb _ _). destruct (info_from_jpeg _); discriminate. discriminate.
  - assert (X : forall l e, merge_pictures l <> Err e).
    { induction l0; cbn [merge_pictures]; [discriminate|]. intros e. destruct (info_from_picture a); try discriminate; auto. destruct (merge_pictures l0) eqn:Q; cbn [bind]; try discriminate. congruence. }
    destruct (merge_pictures l) eqn:EM; auto. exfalso. eapply X; eauto.
Qed.
Print Assumptions C86_direct_partial.
(** Findings: the encoder is written as vendor and as a field; a flag and a rating are written as they are. *)
Theorem C86_direct_refuted : ~ (forall (t : tag unit), vc_ref_of_tag t = vc_of_tag DefaultProvider t) /\
  ~ (forall (t : tag unit) r i, vc_ref_of_tag t = Ok r -> In i (vc_items r) -> fst i = $"COMPILATION" -> snd i = $"1" \/ snd i = $"0").
Proof.
  split; intro H.
  - specialize (H (mkTag VorbisComments [] [tk KEncoderSoftware ($"e")] None)). vm_compute in H. discriminate.
  - destruct (H (mkTag VorbisComments [] [tk KFlagCompilation ($"true")] None) (mkVc [] [($"COMPILATION", $"true")] []) ($"COMPILATION", $"true")) as [X|X];
      try (vm_compute; reflexivity); try (now left); vm_compute in X; discriminate.
Qed.
Print Assumptions C86_direct_refuted.
Example C86_ex : vc_ref_of_tag (mkTag VorbisComments [] [tk KEncoderSoftware ($"e"); tk KTrackTitle ($"t"); tk KPopularimeter ($"a|5|1")] None : tag unit) =
    Ok (mkVc ($"e") [($"ENCODER", $"e"); ($"TITLE", $"t"); ($"RATING", $"a|5|1")] []) /\
  vc_of_tag DefaultProvider (mkTag VorbisComments [] [tk KEncoderSoftware ($"e"); tk KTrackTitle ($"t"); tk KPopularimeter ($"a|5|1")] None : tag unit) =
    Ok (mkVc ($"e") [($"TITLE", $"t"); ($"RATING:a", $"100")] []).
Proof. vm_compute. split; reflexivity. Qed.
