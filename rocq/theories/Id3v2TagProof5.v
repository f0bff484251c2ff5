(** Proofs about the frames made from the items of a Tag. *)
From Coq Require Import Permutation.
From Verif Require Import BaseLemmas FrameProof2 FrameListProof ItemKeyThm Id3v2TagProof2.
From Verif Require Import Id3v2TagSpec.

Section Made.
Variable custom : provider.

(** *** Items without an effect *)
Lemma no_effect : forall owned i, (forall c, item_to_frame custom owned c i = (c, None)) ->
  forall a b, from_tag custom owned (a ++ i :: b) = from_tag custom owned (a ++ b).
Proof.
  intros owned i H a b. unfold from_tag. rewrite !run_app. destruct (items_to_frames custom owned ctx0 a) as [c d]. cbn [items_to_frames]. rewrite H.
  now destruct (items_to_frames custom owned c b).
Qed.
Lemma lost_none : forall owned k lang d v c, In k LOST -> item_to_frame custom owned c (mkItem lang d k v) = (c, None).
Proof.
  intros owned k lang d v c H. destruct (item_string owned (mkItem lang d k v)) as [s|] eqn:S.
  - rewrite (step_other custom owned c _ s) by (auto; cbn [In LOST it_key] in *; repeat destruct H as [<- | H]; try contradiction; reflexivity). cbn [it_key].
    cbn [In LOST] in H. repeat destruct H as [<- | H]; try contradiction; reflexivity.
  - destruct c. unfold item_to_frame. rewrite S. cbn [it_key]. cbn [In LOST] in H. repeat destruct H as [<- | H]; try contradiction; reflexivity.
Qed.
Lemma no_string_none : forall k i owned c, it_key i = k -> item_string owned i = None -> value_text (it_value i) = None ->
  ~ In (target_of k) [ToTrack; ToTrackTotal; ToDisc; ToDiscTotal] -> item_to_frame custom owned c i = (c, None).
Proof.
  intros k i owned c <- S V H. destruct c. unfold item_to_frame. rewrite S, V. cbn [In] in H. destruct (target_of (it_key i)); try reflexivity; exfalso; apply H; tauto.
Qed.

(** *** The set *)
Lemma set_fold_in : forall l acc g, In g (fold_left (fun acc f => if existsb (fun g => frame_eqb g f) acc then acc else acc ++ [f]) l acc) -> In g acc \/ In g l.
Proof.
  induction l as [|f l IH]; intros acc g H; cbn [fold_left] in H; auto. apply IH in H as [H|H]; [|right; now right].
  destruct (existsb (fun g => frame_eqb g f) acc); auto. apply in_app_iff in H as [H|[<- |[]]]; auto. right. now left.
Qed.
Lemma set_in : forall l g, In g (set_of l) -> In g l.
Proof. intros l g H. apply set_fold_in in H as [[]|H]; auto. Qed.
Lemma set_fold_has : forall l acc f, In f acc \/ In f l ->
  exists g, In g (fold_left (fun acc f => if existsb (fun g => frame_eqb g f) acc then acc else acc ++ [f]) l acc) /\ (g = f \/ frame_eqb g f = true).
Proof.
  induction l as [|x l IH]; intros acc f H; cbn [fold_left].
  - destruct H as [H|[]]. eauto.
  - destruct (existsb (fun g => frame_eqb g x) acc) eqn:E.
    + destruct H as [H|[-> |H]]; [apply IH; auto| |apply IH; auto]. apply existsb_exists in E as (g & I & E).
      destruct (IH acc g (or_introl I)) as (g' & I' & _). assert (J : forall l acc g, In g acc -> In g (fold_left (fun acc f => if existsb (fun g => frame_eqb g f) acc then acc else acc ++ [f]) l acc)).
      { clear. induction l as [|y l IH]; intros acc g H; cbn [fold_left]; auto. apply IH. destruct (existsb _ acc); auto. apply in_or_app. now left. }
      exists g. split; auto.
    + apply IH. destruct H as [H|[-> |H]]; [left; apply in_or_app; now left|left; apply in_or_app; right; now left|auto].
Qed.
Lemma set_has : forall l f, In f l -> exists g, In g (set_of l) /\ (g = f \/ frame_eqb g f = true).
Proof. intros l f H. apply set_fold_has. now right. Qed.

(** *** The check before saving *)
Definition fits (id : str) : bool := in_names id [$"WFED"; $"GRP1"; $"MVNM"; $"MVIN"] || starts 84 id.
Definition unsaved (k : item_key) : bool := existsb (ik_eqb k) UNSAVED.
Lemma text_fits : forall k, target_of k = ToText -> k <> KWork -> fits (mapped_key k) = true.
Proof.
  intros k T W. pose proof (for_keys (fun k => match target_of k with ToText => ik_eqb k KWork || fits (mapped_key k) | _ => true end) eq_refl k) as H. cbv beta in H.
  rewrite T in H. apply orb_true_iff in H as [H|H]; auto. exfalso. apply W. now apply ik_eqb_eq.
Qed.
Lemma extend_fst : forall (P : str -> Prop) k v m, P k -> Forall (fun e => P (fst e)) m -> Forall (fun e => P (fst e)) (map_extend list_eqb k v m).
Proof.
  induction m as [|[k' v'] m IH]; intros Pk F; cbn [map_extend]. now repeat constructor. apply Forall_cons_iff in F as [F1 F2].
  destruct (list_eqb k k'); constructor; auto.
Qed.
Lemma item_verified : forall owned c i c' o, it_key i <> KWork -> it_key i <> KFlagPodcast -> item_to_frame custom owned c i = (c', o) ->
  Forall (fun e => fits (fst e) = true) (c_text c) ->
  Forall (fun e => fits (fst e) = true) (c_text c') /\ (forall f, o = Some f -> verify_frame f = true).
Proof.
  intros owned c i c' o W P E F. destruct (target_of (it_key i)) eqn:T.
  all: try (destruct c as [x1 x2 x3 x4 x5 x6 x7 x8 x9]; unfold item_to_frame in E; rewrite T in E; cbn [c_text] in *;
            try (match type of E with context [item_string ?o ?j] => destruct (item_string o j) as [s|] end; [|injection E as <- <-; split; [exact F|discriminate]]);
            injection E as <- <-; cbn [c_text]; split; [solve [exact F | apply (extend_fst (fun id => fits id = true)); auto; now apply text_fits]|try discriminate]).
  - destruct (value_text (it_value i)) as [s|]; [|discriminate]. destruct (ApeModel.flag_item s); [|discriminate]. intros f Ef. injection Ef as <-.
    assert (K : it_key i = KFlagCompilation).
    { pose proof (for_keys (fun k => match target_of k with ToFlag => ik_eqb k KFlagCompilation || ik_eqb k KFlagPodcast | _ => true end) eq_refl (it_key i)) as H. cbv beta in H. rewrite T in H.
      apply orb_true_iff in H as [H|H]; apply ik_eqb_eq in H; congruence. }
    rewrite K. reflexivity.
  - destruct (value_text (it_value i)) as [s|]; [|discriminate]. destruct (parse_uint U8_MAX s); [|discriminate]. destruct (IlstModel.rating_of n); [|discriminate]. intros f Ef. injection Ef as <-. reflexivity.
  - intros f Ef. injection Ef as <-.
    pose proof (for_keys (fun k => match target_of k with ToTime => in_names (mapped_key k) [$"TDRC"; $"TDOR"] | _ => true end) eq_refl (it_key i)) as H. cbv beta in H. rewrite T in H.
    assert (X : mapped_key (it_key i) = $"TDRC" \/ mapped_key (it_key i) = $"TDOR").
    { unfold in_names in H. apply existsb_exists in H as (x & I & H). apply list_eqb_eq in H. rewrite H. destruct I as [<- |[<- |[]]]; auto. }
    destruct (ts_from_str (utf8_enc s)); destruct X as [-> | ->]; reflexivity.
  - destruct (is_ascii s); [|discriminate]. intros f Ef. injection Ef as <-. reflexivity.
  - destruct (popm_from_str custom s); [|discriminate]. intros f Ef. injection Ef as <-. reflexivity.
  - destruct (item_string owned i) as [s|] eqn:S.
    2: { destruct c. unfold item_to_frame in E. rewrite T, S in E. injection E as <- <-. split; [exact F|discriminate]. }
    destruct (tipl_name (it_key i)) as [n|] eqn:Nm.
    + rewrite (step_tipl custom owned c i s n) in E by auto. injection E as <- <-. split; [exact F|discriminate].
    + rewrite (step_other custom owned c i s) in E by auto. injection E as <- <-. split; [exact F|].
      destruct (map_key Id3v2 (it_key i)) as [m|]; [|discriminate]. destruct (lenN m =? 4); [|discriminate]. destruct (frame_id_new m); [|discriminate].
      destruct (starts 84 m) eqn:S4. intros g Eg. injection Eg as <-. unfold verify_frame. change (f_name (text_frame m s)) with m. cbn [text_frame]. rewrite S4. apply orb_true_r.
      destruct (starts 87 m) eqn:S7; [|discriminate]. intros g Eg. injection Eg as <-. exact S7.
Qed.
Lemma items_verified : forall owned l c c' d, Forall (fun i => ~ In (it_key i) UNSAVED) l -> items_to_frames custom owned c l = (c', d) ->
  Forall (fun e => fits (fst e) = true) (c_text c) -> Forall (fun e => fits (fst e) = true) (c_text c') /\ Forall (fun f => verify_frame f = true) d.
Proof.
  induction l as [|i l IH]; intros c c' d U E F; cbn [items_to_frames] in E.
  - injection E as <- <-. auto.
  - apply Forall_cons_iff in U as [U1 U2]. destruct (item_to_frame custom owned c i) as [c1 o] eqn:E1. destruct (items_to_frames custom owned c1 l) as [c2 r] eqn:E2. injection E as <- <-.
    destruct (item_verified owned c i c1 o) as [F1 V1]; auto; try (intros X; apply U1; rewrite X; cbn; tauto).
    destruct (IH _ _ _ U2 E2 F1) as [F2 V2]. split; auto. destruct o; auto.
Qed.
Lemma from_tag_verified : forall owned l, Forall (fun i => ~ In (it_key i) UNSAVED) l -> Forall (fun f => verify_frame f = true) (from_tag custom owned l).
Proof.
  intros owned l U. unfold from_tag. destruct (items_to_frames custom owned ctx0 l) as [c d] eqn:E. destruct (items_verified owned l ctx0 c d U E) as [F V]; [constructor|].
  apply Forall_forall. intros f I. apply set_in in I. apply in_app_iff in I as [I|I]. now apply (proj1 (Forall_forall _ _) V).
  unfold ctx_frames in I. rewrite !in_app_iff in I. destruct I as [I|[I|[I|[I|[I|[I|I]]]]]].
  - destruct (c_tipl c); [contradiction|]. destruct I as [<- |[]]. reflexivity.
  - apply in_map_iff in I as (e & <- & I). rewrite Forall_forall in F. apply F in I. exact I.
  - apply in_map_iff in I as (e & <- & I). reflexivity.
  - apply in_map_iff in I as (e & <- & I). reflexivity.
  - apply in_map_iff in I as (e & <- & I). reflexivity.
  - destruct (format_number_pair (c_track c) (c_track_total c)); [|contradiction]. destruct I as [<- |[]]. reflexivity.
  - destruct (format_number_pair (c_disc c) (c_disc_total c)); [|contradiction]. destruct I as [<- |[]]. reflexivity.
Qed.

(** *** Items that spoil saving *)
Lemma extend_has : forall k v m, exists v', In (k, v') (map_extend list_eqb k v m).
Proof.
  induction m as [|[k' v'] m (x & IH)]; cbn [map_extend]. exists v. now left.
  destruct (list_eqb k k') eqn:E. apply list_eqb_eq in E. subst. eexists. now left. exists x. now right.
Qed.
Lemma extend_keeps : forall k v k0 v0 m, In (k0, v0) m -> exists v', In (k0, v') (map_extend list_eqb k v m).
Proof.
  induction m as [|[k' v'] m IH]; intros H; [contradiction|]. cbn [map_extend]. destruct (list_eqb k k') eqn:E.
  - destruct H as [H|H]. injection H as -> ->. eexists. now left. exists v0. now right.
  - destruct H as [H|H]. exists v0. left. exact H. destruct (IH H) as (x & I). exists x. now right.
Qed.
Lemma text_kept_one : forall owned c i c' o k v, item_to_frame custom owned c i = (c', o) -> In (k, v) (c_text c) -> exists v', In (k, v') (c_text c').
Proof.
  intros owned c i c' o k v E I. destruct c as [x1 x2 x3 x4 x5 x6 x7 x8 x9]. unfold item_to_frame in E. cbn [c_text] in *. destruct (target_of (it_key i)) eqn:T.
  all: try (destruct (item_string owned i) as [s|]; [|injection E as <- <-; eauto]).
  all: try (destruct (tipl_name (it_key i))).
  all: injection E as <- <-; cbn [Id3v2TagModel.c_text]; eauto.
  all: eapply extend_keeps; eauto.
Qed.
Lemma text_kept : forall owned l c c' d k v, items_to_frames custom owned c l = (c', d) -> In (k, v) (c_text c) -> exists v', In (k, v') (c_text c').
Proof.
  induction l as [|i l IH]; intros c c' d k v E I; cbn [items_to_frames] in E. injection E as <- <-. eauto.
  destruct (item_to_frame custom owned c i) as [c1 o] eqn:E1. destruct (items_to_frames custom owned c1 l) as [c2 r] eqn:E2. injection E as <- <-.
  destruct (text_kept_one _ _ _ _ _ _ _ E1 I) as (v1 & I1). eauto.
Qed.
Lemma work_made : forall owned a i b s, it_key i = KWork -> item_string owned i = Some s ->
  exists f, In f (from_tag custom owned (a ++ i :: b)) /\ f_id f = Valid ($"WORK") /\ verify_frame f = false.
Proof.
  intros owned a i b s K S. unfold from_tag. rewrite run_app. destruct (items_to_frames custom owned ctx0 a) as [c1 d1]. cbn [items_to_frames].
  rewrite (step_text custom owned c1 i s) by (auto; now rewrite K). rewrite K. change (mapped_key KWork) with ($"WORK").
  destruct (items_to_frames custom owned (set_text c1 (map_extend list_eqb ($"WORK") s (c_text c1))) b) as [c2 d2] eqn:E2.
  destruct (extend_has ($"WORK") s (c_text c1)) as (v & I). destruct (text_kept _ _ _ _ _ ($"WORK") v E2 I) as (v' & I').
  destruct (set_has ((d1 ++ d2) ++ ctx_frames c2) (text_frame ($"WORK") v')) as (g & Ig & Eg).
  - apply in_or_app. right. unfold ctx_frames. apply in_or_app. right. apply in_or_app. left. apply in_map_iff. exists ($"WORK", v'). auto.
  - exists g. split; auto. destruct Eg as [-> |Eg]; [split; reflexivity|]. destruct g; try discriminate Eg. cbn [frame_eqb text_frame] in Eg.
    apply id_eqb_eq in Eg. cbn [f_id f_header]. destruct h as [n fl]. cbn [fh_id new_header] in Eg. subst n. split; reflexivity.
Qed.
Lemma podcast_made : forall owned a i b s, it_key i = KFlagPodcast -> it_value i = VText s -> ApeModel.flag_item s <> None ->
  exists f, In f (from_tag custom owned (a ++ i :: b)) /\ f_id f = Valid ($"PCST") /\ verify_frame f = false.
Proof.
  intros owned a i b s K V Fl. unfold from_tag. rewrite run_app. destruct (items_to_frames custom owned ctx0 a) as [c1 d1]. cbn [items_to_frames].
  assert (X : exists v, item_to_frame custom owned c1 i = (c1, Some (text_frame ($"PCST") v))).
  { destruct c1. unfold item_to_frame. rewrite K, V. cbn [target_of value_text]. destruct (ApeModel.flag_item s); [|congruence]. cbn [option_map]. eexists. reflexivity. }
  destruct X as (v & ->). destruct (items_to_frames custom owned c1 b) as [c2 d2].
  destruct (set_has ((d1 ++ text_frame ($"PCST") v :: d2) ++ ctx_frames c2) (text_frame ($"PCST") v)) as (g & Ig & Eg).
  - apply in_or_app. left. apply in_or_app. right. now left.
  - exists g. split; auto. destruct Eg as [-> |Eg]; [split; reflexivity|]. destruct g; try discriminate Eg. cbn [frame_eqb text_frame] in Eg.
    apply id_eqb_eq in Eg. cbn [f_id f_header]. destruct h as [n fl]. cbn [fh_id new_header] in Eg. subst n. split; reflexivity.
Qed.
Lemma unwritable : forall w tf l f, In f l -> is_valid_id (f_id f) = true -> verify_frame f = false -> in_names (f_name f) V4_ONLY = false ->
  forall tag, create_tag w tf l <> Ok tag.
Proof.
  intros w tf l f I Vd VF V4o tag E. unfold create_tag in E. destruct l as [|f0 l0]; [destruct I|]. remember (f0 :: l0) as l. clear Heql f0 l0.
  destruct (write_frames w l) as [fb| |] eqn:W; cbn [bind] in E; try discriminate E. clear E.
  unfold write_frames, items in W. destruct (w_v23 w).
  - revert I W. generalize false (@None (encoding * str)) fb. induction l as [|g l IH]; intros b ip fb' I W; [destruct I|]. cbn [items23] in W. destruct I as [-> |I].
    + rewrite Vd, V4o, VF in W. discriminate W.
    + destruct (negb (is_valid_id (f_id g))); [eapply IH; eauto|]. destruct (in_names (f_name g) V4_ONLY); [eapply IH; eauto|]. destruct (negb (verify_frame g)); [discriminate W|].
      destruct (conv23 g).
      * eapply IH; eauto.
      * destruct (write_one _ w b g) as [[x b']| |]; cbn [bind] in W; try discriminate W. destruct (items23 _ w b' ip l) as [y| |] eqn:Y; cbn [bind] in W; try discriminate W. eapply IH; eauto.
      * destruct (new_frames w _) as [x| |]; cbn [bind] in W; try discriminate W. destruct (items23 _ w b ip l) as [y| |] eqn:Y; cbn [bind] in W; try discriminate W. eapply IH; eauto.
      * destruct ip as [[e' v']|]; eapply IH; eauto.
  - revert I W. generalize false fb. induction l as [|g l IH]; intros b fb' I W; [destruct I|]. cbn [items24] in W. destruct I as [-> |I].
    + rewrite Vd, VF in W. discriminate W.
    + destruct (negb (is_valid_id (f_id g))); [eapply IH; eauto|]. destruct (negb (verify_frame g)); [discriminate W|].
      destruct (write_one _ w b g) as [[x b']| |]; cbn [bind] in W; try discriminate W. destruct (items24 _ w b' l) as [y| |] eqn:Y; cbn [bind] in W; try discriminate W. eapply IH; eauto.
Qed.

(** *** Pictures *)
Definition no_pic (f : frame) : Prop := match f with FPicture _ _ _ => False | _ => True end.
Lemma item_no_pic : forall owned c i c' f, item_to_frame custom owned c i = (c', Some f) -> no_pic f.
Proof.
  intros owned c i c' f E. destruct c as [x1 x2 x3 x4 x5 x6 x7 x8 x9]. unfold item_to_frame, option_map in E. destruct (target_of (it_key i)).
  all: repeat match type of E with
       | context [match ?x with _ => _ end] => first [discriminate E | destruct x]
       end; try discriminate E; cbn [option_map] in E; try discriminate E; injection E as _ <-; exact I.
Qed.
Lemma items_no_pic : forall owned l c c' d, items_to_frames custom owned c l = (c', d) -> Forall no_pic d.
Proof.
  induction l as [|i l IH]; intros c c' d E; cbn [items_to_frames] in E. injection E as _ <-. constructor.
  destruct (item_to_frame custom owned c i) as [c1 o] eqn:E1. destruct (items_to_frames custom owned c1 l) as [c2 r] eqn:E2. injection E as _ <-.
  apply IH in E2. destruct o; auto. constructor; auto. eapply item_no_pic; eauto.
Qed.
Lemma from_tag_no_pic : forall owned l, Forall no_pic (from_tag custom owned l).
Proof.
  intros owned l. unfold from_tag. destruct (items_to_frames custom owned ctx0 l) as [c d] eqn:E. apply items_no_pic in E.
  apply Forall_forall. intros f I. apply set_in in I. apply in_app_iff in I as [I|I]. now apply (proj1 (Forall_forall _ _) E).
  unfold ctx_frames in I. rewrite !in_app_iff in I. destruct I as [I|[I|[I|[I|[I|[I|I]]]]]].
  - destruct (c_tipl c); [contradiction|]. destruct I as [<- |[]]. exact Logic.I.
  - apply in_map_iff in I as (e & <- & I). exact Logic.I.
  - apply in_map_iff in I as (e & <- & I). exact Logic.I.
  - apply in_map_iff in I as (e & <- & I). exact Logic.I.
  - apply in_map_iff in I as (e & <- & I). exact Logic.I.
  - destruct (format_number_pair (c_track c) (c_track_total c)); [|contradiction]. destruct I as [<- |[]]. exact Logic.I.
  - destruct (format_number_pair (c_disc c) (c_disc_total c)); [|contradiction]. destruct I as [<- |[]]. exact Logic.I.
Qed.
Lemma insert_pictures' : forall ps l, NoDup ps -> (forall p, In p ps -> ~ In (picture_frame p) l) ->
  fold_left (fun l p => fst (fl_insert (picture_frame p) l)) ps l = l ++ map picture_frame ps.
Proof.
  induction ps as [|p ps IH]; intros l N H; cbn [fold_left map]. now rewrite app_nil_r.
  assert (X : fst (fl_insert (picture_frame p) l) = l ++ [picture_frame p]).
  { unfold fl_insert. change (in_names (f_name (picture_frame p)) ONE_PER_TAG) with false. cbv iota. rewrite take_first_none; auto.
    apply Forall_forall. intros g I. destruct (frame_eqb g (picture_frame p)) eqn:E; auto. exfalso.
    assert (Eg : g = picture_frame p).
    { destruct g; try discriminate E. cbn [frame_eqb picture_frame] in E. rewrite !andb_true_iff, !yes_true in E. destruct E as [[-> ->] ->]. reflexivity. }
    subst g. apply (H p); auto. now left. }
  apply NoDup_cons_iff in N as [N1 N2]. rewrite X, IH; auto. now rewrite <- app_assoc.
  intros q I J. apply in_app_iff in J as [J|[J|[]]]. apply (H q); auto. now right. injection J as ->. contradiction.
Qed.

(** *** Frames survive the merge *)
Lemma take_first_keeps : forall p l f, In f l -> p f = false -> In f (snd (take_first p l)).
Proof.
  intros p l f I P. pose proof (take_first_spec p l) as S. destruct (take_first p l) as [[x|] r]; cbn [snd].
  - destruct S as (a & b & -> & -> & Px & _). apply in_app_iff in I as [I|[-> |I]]; [apply in_or_app; now left|congruence|apply in_or_app; now right].
  - destruct S as [-> _]. exact I.
Qed.
Lemma merge_keeps : forall l f g, is_tipl g = false -> In g l \/ g = f -> In g (merge_frame l f).
Proof.
  intros l f g T H. unfold merge_frame. destruct (is_tipl f) eqn:Tf.
  - destruct H as [H| ->]; [|congruence]. pose proof (take_first_keeps is_tipl l g H T) as K. destruct (take_first is_tipl l) as [[x|] r]; cbn [snd] in K.
    apply in_or_app. now left. apply in_or_app. now left.
  - apply in_or_app. destruct H as [H| ->]; [now left|right; now left].
Qed.
Lemma merges_keep : forall l0 l g, is_tipl g = false -> In g l \/ In g l0 -> In g (fold_left merge_frame l0 l).
Proof.
  induction l0 as [|f l0 IH]; intros l g T H; cbn [fold_left]. destruct H as [H|[]]; auto.
  apply IH; auto. destruct H as [H|[-> |H]]; auto; left; apply merge_keeps; auto.
Qed.
Lemma pictures_keep : forall ps l g, no_pic g -> In g l -> In g (fold_left (fun l p => fst (fl_insert (picture_frame p) l)) ps l).
Proof.
  induction ps as [|p ps IH]; intros l g K I; cbn [fold_left]; auto. apply IH; auto.
  unfold fl_insert. change (in_names (f_name (picture_frame p)) ONE_PER_TAG) with false. cbv iota.
  pose proof (take_first_keeps (fun g => frame_eqb g (picture_frame p)) l g I) as T. destruct (take_first (fun g => frame_eqb g (picture_frame p)) l) as [o r]. cbn [fst snd] in *.
  apply in_or_app. left. apply T. destruct g; try reflexivity. contradiction.
Qed.
Lemma of_tag_keeps : forall order preserve g f, (forall l, Permutation (order l) l) -> In f (from_tag custom true (t_items g)) -> is_tipl f = false ->
  In f (t_frames (of_tag order custom preserve g)).
Proof.
  intros order preserve g f Or I T. assert (E : exists t0, of_tag order custom preserve g = merge_tag order custom t0 g).
  { unfold of_tag. destruct (if preserve then t_companion g else None) as [[t|]|]; eauto. }
  destruct E as (t0 & ->). unfold merge_tag, with_frames. cbn [t_frames]. apply pictures_keep.
  - apply (proj1 (Forall_forall _ _) (from_tag_no_pic true (t_items g)) f I).
  - apply merges_keep; auto. right. apply (Permutation_in _ (Permutation_sym (Or _))). exact I.
Qed.
End Made.
