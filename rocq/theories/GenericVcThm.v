(** A generic tag in OGG and FLAC files (C238). *)
From Coq Require Import Permutation.
From Verif Require Import BaseLemmas StrLemmas ItemKeyThm PictureThm TagThm VorbisModel VorbisThm VorbisThm2 VorbisThm3 FlacModel FlacSpec FlacProof FlacThm OggModel OggFileModel OggFileThm.
From Verif Require Import TextProof.
From Verif Require Import TagModel.

(** What can be stored: the items with a text whose key has a name in Vorbis comments. *)
Definition stored (i : tag_item) : option tag_item :=
  match it_value i, map_key VorbisComments (it_key i) with
  | (VText s | VLocator s), Some _ => Some (new_item (it_key i) (VText s))
  | _, _ => None
  end.
(** The encoder is the vendor of the comments unless there is an item for it. *)
Definition with_vendor (v : str) (l : list tag_item) : list tag_item :=
  if existsb (fun i => ik_eqb (it_key i) KEncoderSoftware) l then l else l ++ [new_item KEncoderSoftware (VText v)].
Lemma stored_item : forall custom i, (match ref_vc_item i with Some x => split_vc_item custom x | None => None end) = stored i.
Proof.
  intros custom i. unfold ref_vc_item, stored. destruct (it_value i); cbn [value_into_string]; auto; (destruct (map_key VorbisComments (it_key i)) as [k|] eqn:M; auto); cbn [split_vc_item]; now rewrite (vc_key _ _ M).
Qed.
Theorem C238_items : forall C custom (t : tag C) v pics, tag_of_vc custom (mkVc v (filter_map ref_vc_item (t_items t)) pics) = mkTag VorbisComments (map fst pics) (with_vendor v (filter_map stored (t_items t))) None :> tag C.
Proof.
  intros C custom t v pics. unfold tag_of_vc, vc_split. cbn [snd vc_items vc_vendor vc_pics].
  assert (E : filter_map (split_vc_item custom) (filter_map ref_vc_item (t_items t)) = filter_map stored (t_items t)).
  { induction (t_items t) as [|i l IH]; auto. cbn [filter_map]. rewrite <- (stored_item custom i). destruct (ref_vc_item i); cbn [filter_map]; now rewrite IH. }
  rewrite E. reflexivity.
Qed.

(** ** The tags that fit *)
Definition value_fits (v : str) : Prop := str_ok v /\ v <> [] /\ last v 1 <> 0 /\ lenN (utf8_enc v) < 2 ^ 31.
Definition item_fits (i : tag_item) : Prop := match stored i with Some j => exists s, it_value j = VText s /\ value_fits s | None => True end.
(** If numbers are converted: one of each kind at most, without signs and leading zeros *)
Definition numbers_fit (o : vopts) (l : list tag_item) : Prop := vo_implicit o = true -> forall k, k = KTrackNumber \/ k = KDiscNumber ->
  (length (filter (fun i => ik_eqb (it_key i) k) (filter_map stored l)) <= 1)%nat /\
  forall i, In i (filter_map stored l) -> it_key i = k -> exists n, n <= U32_MAX /\ it_value i = VText (to_dec n).
Definition row_fits (k : item_key) : bool :=
  match map_key VorbisComments k with
  | None => true
  | Some s => match s with [] => false | _ => true end && valid_key s && negb (eq_ignore_case s MBP) && negb (eq_ignore_case s COVERART) && negb (eq_ignore_case s VTRACK2) && (lenN s <? 1000) &&
      (negb (eq_ignore_case s VTRACK) || (ik_eqb k KTrackNumber && list_eqb s VTRACK)) && (negb (eq_ignore_case s VDISC) || (ik_eqb k KDiscNumber && list_eqb s VDISC))
  end.
Lemma rows_fit : forall k, row_fits k = true.
Proof. apply for_keys. vm_compute. reflexivity. Qed.
Lemma row_facts : forall k s, map_key VorbisComments k = Some s ->
  s <> [] /\ Forall name_char s /\ lower s <> lower MBP /\ lower s <> lower COVERART /\ lower s <> lower VTRACK2 /\ lenN s < 1000 /\ (lower s = lower VTRACK -> k = KTrackNumber /\ s = VTRACK) /\ (lower s = lower VDISC -> k = KDiscNumber /\ s = VDISC).
Proof.
  intros k s M. pose proof (rows_fit k) as R. unfold row_fits in R. rewrite M in R. repeat match goal with H : _ && _ = true |- _ => apply andb_prop in H as [? ?] end.
  assert (NE : forall x, negb (eq_ignore_case s x) = true -> lower s <> lower x). { intros x X Y. apply (proj2 (eq_ignore_case_iff s x)) in Y. rewrite Y in X. discriminate. }
  assert (OR : forall x kk, negb (eq_ignore_case s x) || (ik_eqb k kk && list_eqb s x) = true -> lower s = lower x -> k = kk /\ s = x).
  { intros x kk X Y. apply (proj2 (eq_ignore_case_iff s x)) in Y. rewrite Y in X. cbn [negb orb] in X. apply andb_prop in X as [X1 X2]. apply ik_eqb_eq in X1. apply list_eqb_eq in X2. auto. }
  split; [destruct s; [discriminate|discriminate]|]. split; [now apply valid_key_iff|]. repeat (split; [auto; fail|]). split; [lia|]. split; auto.
Qed.
Lemma fits_items : forall o l b, Forall item_fits l -> numbers_fit o (b ++ l) -> vitems_ok o (filter_map ref_vc_item b) (filter_map ref_vc_item l).
Proof.
  assert (APP : forall (x y : list tag_item), filter_map ref_vc_item (x ++ y) = filter_map ref_vc_item x ++ filter_map ref_vc_item y) by (induction x as [|i x IH]; intros; auto; cbn [filter_map app]; destruct (ref_vc_item i); cbn [app]; now rewrite IH).
  assert (APS : forall (x y : list tag_item), filter_map stored (x ++ y) = filter_map stored x ++ filter_map stored y) by (induction x as [|i x IH]; intros; auto; cbn [filter_map app]; destruct (stored i); cbn [app]; now rewrite IH).
  intros o. induction l as [|i l IH]; intros b F NF; [constructor|]. apply Forall_cons_iff in F as [F1 F2].
  assert (IHb : vitems_ok o (filter_map ref_vc_item (b ++ [i])) (filter_map ref_vc_item l)) by (apply IH; auto; now rewrite <- app_assoc).
  rewrite APP in IHb. cbn [filter_map] in *. destruct (ref_vc_item i) as [[s v]|] eqn:R; [|now rewrite app_nil_r in IHb].
  assert (RF : map_key VorbisComments (it_key i) = Some s /\ value_into_string (it_value i) = Some v /\ stored i = Some (new_item (it_key i) (VText v))).
  { unfold ref_vc_item in R. unfold stored. destruct (it_value i); cbn [value_into_string] in *; try discriminate; destruct (map_key _ _); try discriminate; injection R as -> ->; auto. }
  destruct RF as (M & _ & SI). destruct (row_facts _ _ M) as (T1 & T2 & T3 & T4 & T5 & T6 & T7 & T8). unfold item_fits in F1. rewrite SI in F1. destruct F1 as (s' & E & V1 & V2 & V3 & V4). injection E as <-.
  constructor; [|exact IHb]. destruct (vo_implicit o) eqn:IM.
  - assert (D : (it_key i = KTrackNumber /\ s = VTRACK) \/ (it_key i = KDiscNumber /\ s = VDISC) \/ (lower s <> lower VTRACK /\ lower s <> lower VDISC)).
    { destruct (list_eq_dec N.eq_dec (lower s) (lower VTRACK)) as [X|X]; [left; auto|]. destruct (list_eq_dec N.eq_dec (lower s) (lower VDISC)) as [Y|Y]; [right; left; auto|]. auto. }
    assert (ONCE : forall k, k = it_key i -> k = KTrackNumber \/ k = KDiscNumber -> (exists n, n <= U32_MAX /\ v = to_dec n) /\ forall j x, In j b -> ref_vc_item j = Some x -> it_key j <> k).
    { intros k EK K. destruct (NF IM k K) as [L N]. rewrite APS in L, N. cbn [filter_map] in L, N. rewrite SI in L, N. split.
      - destruct (N (new_item (it_key i) (VText v))) as (n & Hn & E); [apply in_or_app; right; now left|symmetry; exact EK|]. injection E as ->. eauto.
      - intros j x J RJ KJ. assert (SJ : exists w, stored j = Some (new_item (it_key j) (VText w))). { clear - RJ. unfold ref_vc_item in RJ. unfold stored. destruct (it_value j) as [w|w|w]; cbn [value_into_string] in RJ; try discriminate; destruct (map_key VorbisComments (it_key j)); try discriminate; exists w; reflexivity. }
        destruct SJ as (w & SJ). assert (IJ : In (new_item (it_key j) (VText w)) (filter_map stored b)). { clear - J SJ. induction b as [|a b IHb]; [contradiction|]. cbn [filter_map]. destruct J as [-> |J]; [rewrite SJ; now left|]. destruct (stored a); [right|]; auto. }
        rewrite filter_app, app_length in L. cbn [filter] in L. cbn [it_key new_item] in L. rewrite <- EK in L. rewrite (proj2 (ik_eqb_eq k k) eq_refl) in L. cbn [length] in L.
        assert (In (new_item (it_key j) (VText w)) (filter (fun i => ik_eqb (it_key i) k) (filter_map stored b))) as X by (apply filter_In; split; auto; now apply ik_eqb_eq). destruct (filter _ (filter_map stored b)); [contradiction|cbn [length] in L; lia]. }
    assert (BEF : forall k ns, (forall j x, In j b -> ref_vc_item j = Some x -> it_key j <> k) -> (forall n kk ss, In n ns -> map_key VorbisComments kk = Some ss -> lower ss = lower n -> kk = k) -> Forall (other_name ns) (filter_map ref_vc_item b)).
    { intros k ns A B. apply Forall_forall. intros [ss w] I. assert (X : exists j, In j b /\ ref_vc_item j = Some (ss, w)). { clear - I. induction b as [|a b IHb]; [contradiction|]. cbn [filter_map] in I. destruct (ref_vc_item a) eqn:E; [destruct I as [-> |I]; [exists a; split; [now left|auto]|]|]; destruct (IHb I) as (j & J & R); exists j; split; auto; now right. }
      destruct X as (j & J & RJ). apply Forall_forall. intros n Nn E. cbn [fst] in E. apply (A j _ J RJ). apply (B n _ ss Nn); auto. unfold ref_vc_item in RJ. destruct (value_into_string (it_value j)); try discriminate. destruct (map_key VorbisComments (it_key j)); try discriminate. now injection RJ as -> _. }
    destruct D as [[K ->]|[[K ->]|[D1 D2]]].
    + right. split; auto. destruct (ONCE KTrackNumber (eq_sym K) (or_introl eq_refl)) as ((n & Hn & ->) & O). apply number_track; auto. apply (BEF KTrackNumber); auto.
      intros x kk ss [<- |[<- |[]]] MM E; destruct (row_facts _ _ MM) as (_ & _ & _ & _ & U5 & _ & U7 & _); [now apply U7|contradiction].
    + right. split; auto. destruct (ONCE KDiscNumber (eq_sym K) (or_intror eq_refl)) as ((n & Hn & ->) & O). apply number_disc; auto. apply (BEF KDiscNumber); auto.
      intros x kk ss [<- |[]] MM E; destruct (row_facts _ _ MM) as (_ & _ & _ & _ & _ & _ & _ & U8). now apply U8.
    + left. unfold item_ok. cbn [fst snd]. repeat (split; [auto; fail|]). split; [unfold reserved; tauto|]. repeat (split; [auto; fail|]). lia.
  - left. unfold item_ok. cbn [fst snd]. repeat (split; [auto; fail|]). split; [|repeat (split; [auto; fail|]); lia].
    unfold reserved. intros [X|[X|[X [Y|Y]]]]; try contradiction; [congruence|]. apply Y. destruct X as [X|X]; [destruct (T7 X) as [_ ->]|destruct (T8 X) as [_ ->]]; reflexivity.
Qed.
Definition fits (o : vopts) (v : str) (t : list tag_item) : Prop :=
  str_ok v /\ last v 1 <> 0 /\ lenN (utf8_enc v) < 2 ^ 32 /\ Forall item_fits t /\ numbers_fit o t /\ lenN t < 2 ^ 31.
Lemma filter_map_len : forall A B (f : A -> option B) l, lenN (filter_map f l) <= lenN l.
Proof. induction l as [|a l IH]; [reflexivity|]. cbn [filter_map]. rewrite lenN_cons. destruct (f a); rewrite ?lenN_cons; lia. Qed.
Lemma fits_ok : forall o v t pics, fits o v t -> Forall pic_ok pics -> lenN pics < 2 ^ 31 -> vc_ok o (mkVc v (filter_map ref_vc_item t) pics).
Proof.
  intros o v t pics (A & B & C & D & E & F) P L. repeat (split; [assumption|]). split; [apply (fits_items o t []); auto|]. split; [assumption|]. cbn [vc_items vc_pics].
  pose proof (filter_map_len _ _ ref_vc_item t). change (2 ^ 32) with (2 ^ 31 + 2 ^ 31). lia.
Qed.
Lemma ref_fst : forall l r, ref_pictures l = Ok r -> map fst r = l.
Proof.
  induction l as [|p l IH]; cbn [ref_pictures]; intros r H; [now injection H as <-|]. destruct (ref_pictures l); cbn [bind] in H; try discriminate. destruct (info_from_picture p); try discriminate; injection H as <-; cbn [map fst]; f_equal; auto.
Qed.
(** ** OGG files *)
Theorem C238_ogg : forall C custom f o (t : tag C) pics hp ap tail x vb extra rest new,
  ogg_layout f hp ap tail (head_sig f ++ x) vb extra rest -> fits o (kept_vendor vb) (t_items t) -> ref_pictures (t_pictures t) = Ok pics -> Forall pic_ok pics -> lenN pics < 2 ^ 31 ->
  create_metadata_packet (mkVc (kept_vendor vb) (filter_map ref_vc_item (t_items t)) pics) (comment_sig f) (has_framing f) = Ok new -> lenN ap + lenN (head_sig f ++ x) + lenN new + lenN (concat rest) + 3 <= 2 ^ 32 ->
  exists r log v, vc_ref_of_tag t = Ok r /\ ogg_write f (ogg_data hp ap tail) r = Ok log /\ ogg_file_read f o true false (apply_log (ogg_data hp ap tail) log) = Ok (v, PNone) /\
    tag_of_vc custom v = mkTag VorbisComments (if vo_cover o then t_pictures t else []) (with_vendor (kept_vendor vb) (filter_map stored (t_items t))) None :> tag C.
Proof.
  intros C custom f o t pics hp ap tail x vb extra rest new L F RP P LP CM SZ. unfold vc_ref_of_tag. rewrite RP. cbn [bind]. set (r := mkVc _ _ pics).
  destruct (C98_read_back f o r hp ap tail x vb extra rest new L) as (log & W & R); auto. { unfold saved_tag. now apply fits_ok. }
  exists r, log, (if vo_cover o then saved_tag vb r else mkVc (kept_vendor vb) (vc_items r) []). split; [reflexivity|]. split; [exact W|]. split; [exact R|].
  destruct (vo_cover o); unfold saved_tag, r; cbn [vc_items vc_pics]; rewrite C238_items; [now rewrite (ref_fst _ _ RP)|reflexivity].
Qed.
(** ** FLAC files *)
Theorem C238_flac : forall C custom ok o pre info l B audio (t : tag C) pics pad v',
  (pre = [] \/ forall h c, ok h c = true) -> fo_tags o = true -> vo_cover (fo_vo o) = true ->
  tag_prefix pre -> metadata ((0, info) :: l) B -> 34 <= lenN info -> retained (match get_string t KEncoderSoftware with Some s => s | None => [] end) l v' ->
  fits (fo_vo o) v' (t_items t) -> (forall b, vc_dump (mkVc v' (filter_map ref_vc_item (t_items t)) []) = Ok b -> lenN b < 2 ^ 24) ->
  ref_pictures (t_pictures t) = Ok pics -> Forall (fun x => representable (fst x) /\ info_ok (snd x) /\ lenN (snd (picture_block x)) < 2 ^ 24) pics ->
  exists r log, vc_ref_of_tag t = Ok r /\ flac_save (flac_bytes pre B audio) (Some r) [] pad = Ok log /\
    let new := apply_log (flac_bytes pre B audio) log in
    (lenN new < 2 ^ 61 -> exists f, flac_read ok o new = Ok f /\
      match tagged_vc f with
      | Some v => tag_of_vc custom v = mkTag VorbisComments (t_pictures t) (with_vendor (match filter_map stored (t_items t) with [] => [] | _ => v' end) (filter_map stored (t_items t))) None :> tag C
      | None => filter_map stored (t_items t) = [] /\ t_pictures t = []
      end).
Proof.
  intros C custom ok o pre info l B audio t pics pad v' OK T CV P M I R F SZ RP PS. unfold vc_ref_of_tag. rewrite RP. cbn [bind]. set (r := mkVc _ _ pics).
  destruct (C90_roundtrip_partial ok o pre info l B audio r [] pad v') as (log & W & X); auto.
  { unfold r. cbn [vc_items]. apply fits_ok; auto. reflexivity. } { unfold r. cbn [vc_pics]. now rewrite app_nil_r. }
  exists r, log. split; [reflexivity|]. split; [exact W|]. cbv zeta in *. intros LL. destruct (X LL) as (g & G & GT & GP). exists g. split; [exact G|].
  unfold r in GT, GP. cbn [vc_items vc_pics] in GT, GP. rewrite app_nil_r in GP. unfold tagged_vc. rewrite GT, GP.
  assert (NN : filter_map ref_vc_item (t_items t) = [] <-> filter_map stored (t_items t) = []).
  { clear. induction (t_items t) as [|i q IH]; [tauto|]. cbn [filter_map]. rewrite <- (stored_item DefaultProvider i). unfold ref_vc_item in *. destruct (value_into_string (it_value i)) as [v|]; auto. destruct (map_key VorbisComments (it_key i)) eqn:MK; auto. cbn [split_vc_item]. rewrite (vc_key _ _ MK). split; discriminate. }
  destruct (filter_map ref_vc_item (t_items t)) as [|i0 its] eqn:E.
  - assert (SN : filter_map stored (t_items t) = []) by now apply NN. rewrite SN. destruct pics as [|p0 ps].
    + split; auto. apply ref_fst in RP. now rewrite <- RP.
    + pose proof (C238_items C custom t [] (p0 :: ps)) as Y. rewrite E, SN in Y. rewrite Y. now rewrite (ref_fst _ _ RP).
  - destruct (filter_map stored (t_items t)) as [|j0 js] eqn:ES. { exfalso. assert (i0 :: its = []) by now apply NN. discriminate. }
    cbn [vc_vendor vc_items vc_pics app]. rewrite <- E, <- ES, C238_items. now rewrite (ref_fst _ _ RP).
Qed.

(** ** Examples *)
Definition ex_generic : tag unit := mkTag VorbisComments [] [new_item KTrackTitle (VText ($"t")); new_item KTrackNumber (VText ($"3")); new_item KComment (VLocator ($"u")); new_item KPublisherUrl (VText ($"w")); new_item KTrackArtist (VBinary [1])] None.
Example C238_fits : fits (mkVo true true Strict) ($"abc") (t_items ex_generic).
Proof.
  assert (SO : forall x, forallb (fun c => c <? 128) x = true -> str_ok x). { intros x X. apply Forall_forall. intros c I. rewrite forallb_forall in X. apply X in I. apply scalar_bound. lia. }
  repeat split; try (apply SO; reflexivity); try discriminate; try reflexivity.
  - assert (VF : forall x, forallb (fun c => c <? 128) x = true -> x <> [] -> last x 1 <> 0 -> lenN (utf8_enc x) < 2 ^ 31 -> value_fits x) by (intros; repeat split; auto).
    repeat apply Forall_cons; try apply Forall_nil; unfold item_fits, stored, ex_generic; cbn [t_items it_value new_item it_key];
      (destruct (map_key VorbisComments _); [|exact I]) || exact I; eexists; (split; [reflexivity|]); apply VF; reflexivity || discriminate.
  - destruct H0 as [-> | ->]; vm_compute; lia.
  - intros i I K. vm_compute in I. destruct H0 as [-> | ->]; destruct I as [<- |[<- |[<- |[]]]]; try discriminate K; [exists 3; split; [vm_compute; discriminate|reflexivity]].
Qed.
Example C238_ogg_ex : match vc_ref_of_tag ex_generic with
  | Ok r => match ogg_write Opus (ogg_data ex_hp ex_ap [1]) r with
     | Ok log => match ogg_file_read Opus (mkVo true true Strict) true false (apply_log (ogg_data ex_hp ex_ap [1]) log) with
        | Ok (v, _) => tag_of_vc DefaultProvider v = mkTag VorbisComments [] [new_item KTrackTitle (VText ($"t")); new_item KTrackNumber (VText ($"3")); new_item KComment (VText ($"u")); new_item KEncoderSoftware (VText ($"abc"))] None :> tag unit
        | _ => False end
     | _ => False end
  | _ => False end.
Proof. vm_compute. auto. Qed.
Example C238_flac_ex : match vc_ref_of_tag ex_generic with
  | Ok r => match flac_save (flac_bytes [] ex_B [7; 7; 7]) (Some r) [] None with
     | Ok log => match flac_read (fun _ _ => true) FlacThm.ex_opts (apply_log (flac_bytes [] ex_B [7; 7; 7]) log) with
        | Ok f => option_map (fun v => t_items (tag_of_vc (C := unit) DefaultProvider v)) (tagged_vc f) = Some [new_item KTrackTitle (VText ($"t")); new_item KTrackNumber (VText ($"3")); new_item KComment (VText ($"u")); new_item KEncoderSoftware (VText ($"v1"))]
        | _ => False end
     | _ => False end
  | _ => False end.
Proof. vm_compute. auto. Qed.
(** Not all texts come back: empty ones are left out, numbers lose their zeros, the encoder of the tag is written beside that of the file, which then is not seen. *)
Definition ogg_again (o : vopts) (l : list tag_item) : option (list tag_item) :=
  match vc_ref_of_tag (mkTag (C := unit) VorbisComments [] l None) with
  | Ok r => match ogg_write Opus (ogg_data ex_hp ex_ap []) r with
     | Ok log => match ogg_file_read Opus o true false (apply_log (ogg_data ex_hp ex_ap []) log) with Ok (v, _) => Some (t_items (tag_of_vc (C := unit) DefaultProvider v)) | _ => None end
     | _ => None end
  | _ => None end.
Theorem C238_empty_refuted : ~ (forall o i r, ogg_again o [i] = Some r -> stored i = Some i -> In i r).
Proof.
  intro H. specialize (H (mkVo true true Strict) (new_item KTrackTitle (VText [])) [new_item KEncoderSoftware (VText ($"abc"))]). lapply H; [clear H; intro H|vm_compute; reflexivity].
  specialize (H ltac:(vm_compute; reflexivity)). vm_compute in H. intuition discriminate.
Qed.
Theorem C238_number_refuted : ~ (forall o i r, ogg_again o [i] = Some r -> stored i = Some i -> item_fits i -> In i r).
Proof.
  intro H. specialize (H (mkVo true true Strict) (new_item KTrackNumber (VText ($"03"))) [new_item KTrackNumber (VText ($"3")); new_item KEncoderSoftware (VText ($"abc"))]). lapply H; [clear H; intro H|vm_compute; reflexivity].
  specialize (H ltac:(vm_compute; reflexivity)). lapply H; [clear H; intro H; vm_compute in H; intuition discriminate|].
  unfold item_fits. assert (E : stored (new_item KTrackNumber (VText ($"03"))) = Some (new_item KTrackNumber (VText ($"03")))) by (vm_compute; reflexivity). rewrite E. clear E. eexists. split; [reflexivity|]. repeat split; try discriminate; try reflexivity. apply Forall_forall. intros c [<- |[<- |[]]]; reflexivity.
Qed.
Example C238_encoder : ogg_again (mkVo true true Strict) [new_item KEncoderSoftware (VText ($"mine"))] = Some [new_item KEncoderSoftware (VText ($"mine"))].
Proof. vm_compute. reflexivity. Qed.
Print Assumptions C238_items.
Print Assumptions C238_ogg.
Print Assumptions C238_flac.
Print Assumptions C238_empty_refuted.
Print Assumptions C238_number_refuted.
