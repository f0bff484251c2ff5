(** C246: equality, hash and order of ID3v2 frames *)
From Coq Require Import Permutation Sorted.
From Verif Require Import BaseLemmas FrameHashModel.
From Verif Require TimestampThm.

(** What is given to the hasher decides the value, whatever follows. *)
Definition pinj {A} (h : A -> list call) : Prop := forall a b x y, h a ++ x = h b ++ y -> a = b /\ x = y.
Ltac inj := repeat match goal with H : _ :: _ = _ :: _ |- _ => injection H; clear H; intros | H : HN _ = HN _ |- _ => injection H; clear H; intros end.
Lemma p_num : pinj h_num. Proof. intros a b x y H. cbn in H. now injection H. Qed.
Lemma p_str : pinj h_str. Proof. intros a b x y H. cbn in H. now injection H. Qed.
Lemma p_bytes : pinj h_bytes. Proof. intros a b x y H. cbn in H. now injection H. Qed.
Lemma p_bool : pinj h_bool. Proof. intros [|] [|] x y H; cbn in H; injection H; intros; auto; discriminate. Qed.
Lemma p_opt : forall A (h : A -> list call), pinj h -> pinj (h_opt h).
Proof. intros A h P [a|] [b|] x y H; cbn in H; try discriminate H; injection H; intro E; auto. apply P in E as [-> ->]. auto. Qed.
Lemma p_list : forall A (h : A -> list call), pinj h -> pinj (h_list h).
Proof.
  intros A h P a b x y H. unfold h_list in H. cbn [app] in H. injection H as L E. revert b L E. induction a as [|u a IH]; intros [|v b] L E; rewrite ?lenN_cons in L; try (change (lenN (@nil A)) with 0 in L; lia); auto.
  cbn [flat_map] in E. rewrite <- !app_assoc in E. apply P in E as [-> E]. apply IH in E as [-> ->]; [auto|lia].
Qed.
Lemma p_id : pinj h_id. Proof. intros [s|s] [t|t] x y H; cbn in H; try discriminate H; injection H; intros; subst; auto. Qed.
Lemma pj_flags : pinj h_flags.
Proof.
  intros [a1 a2 a3 a4 a5 a6 a7 a8] [b1 b2 b3 b4 b5 b6 b7 b8] x y H. unfold h_flags in H. cbn [ff_tag_alter ff_file_alter ff_read_only ff_group ff_compression ff_encryption ff_unsync ff_length] in H. rewrite <- !app_assoc in H.
  apply p_bool in H as [-> H]. apply p_bool in H as [-> H]. apply p_bool in H as [-> H]. apply (p_opt _ _ p_num) in H as [-> H]. apply p_bool in H as [-> H].
  apply (p_opt _ _ p_num) in H as [-> H]. apply p_bool in H as [-> H]. apply (p_opt _ _ p_num) in H as [-> H]. auto.
Qed.
Lemma p_header : pinj h_header.
Proof. intros [i f] [j g] x y H. unfold h_header in H. cbn [fh_id fh_flags] in H. rewrite <- !app_assoc in H. apply p_id in H as [-> H]. apply pj_flags in H as [-> H]. auto. Qed.
Lemma p_enc : pinj h_enc. Proof. intros [| | |] [| | |] x y H; cbn in H; try discriminate H; injection H; auto. Qed.
Lemma pj_mime : pinj h_mime. Proof. intros [| | | | |s] [| | | | |t] x y H; cbn in H; try discriminate H; injection H; intros; subst; auto. Qed.
Lemma p_ptype : pinj h_ptype.
Proof. intros a b x y H. destruct a, b; cbn in H; try discriminate H; injection H; intros; subst; auto. Qed.
Lemma p_picture : pinj h_picture.
Proof.
  intros [a1 a2 a3 a4] [b1 b2 b3 b4] x y H. unfold h_picture in H. cbn [p_type p_mime p_desc p_data] in H. rewrite <- !app_assoc in H.
  apply p_ptype in H as [-> H]. apply (p_opt _ _ pj_mime) in H as [-> H]. apply (p_opt _ _ p_str) in H as [-> H]. apply p_bytes in H as [-> H]. auto.
Qed.
Lemma p_pair : pinj h_pair. Proof. intros [a b] [c d] x y H. cbn in H. now injection H as -> -> ->. Qed.
Lemma p_event : pinj h_event. Proof. intros [a b] [c d] x y H. cbn in H. now injection H as -> -> ->. Qed.
Lemma p_format : pinj h_format. Proof. intros [|] [|] x y H; cbn in H; try discriminate H; injection H; auto. Qed.
Lemma p_time : pinj h_time.
Proof.
  intros [a1 a2 a3 a4 a5 a6] [b1 b2 b3 b4 b5 b6] x y H. unfold h_time in H. cbn [ts_year ts_month ts_day ts_hour ts_minute ts_second] in H. rewrite <- !app_assoc in H. apply p_num in H as [-> H].
  do 5 (apply (p_opt _ _ p_num) in H as [-> H]). auto.
Qed.
Lemma yes_iff : forall P (d : {P} + {~ P}), yes d = true <-> P. Proof. intros P [p|p]; cbn; split; auto; discriminate. Qed.
Lemma list_eqb_iff : forall a b, list_eqb a b = true <-> a = b. Proof. intros. split; [apply list_eqb_eq|intros ->; apply list_eqb_refl]. Qed.
Lemma id_eqb_iff : forall a b, id_eqb a b = true <-> a = b. Proof. intros. unfold id_eqb. destruct (frame_id_dec a b); split; auto; discriminate. Qed.
Lemma app_end : forall (A : Type) (a b : list A), a = b -> a ++ [] = b ++ []. Proof. congruence. Qed.
Lemma p_whole : forall A (h : A -> list call), pinj h -> forall a b, h a = h b -> a = b. Proof. intros A h P a b E. apply app_end in E. now apply P in E. Qed.
Ltac use P H := apply P in H as [? H]; try subst.
(** Frames are equal exactly if they give the same to the hasher. *)
Theorem C246_hash : forall f g, frame_eqb f g = true <-> h_frame f = h_frame g.
Proof.
  intros f g. destruct f, g; cbn [frame_eqb h_frame]; try (split; discriminate); rewrite ?andb_true_iff, ?yes_iff, ?list_eqb_iff, ?id_eqb_iff.
  all: try (split; [intro H; decompose [and] H; subst; try reflexivity; congruence|intro H; apply (f_equal (@tl call)) in H; cbn [tl] in H]).
  all: try (unfold h_bytes, h_str in H; cbn [app] in H; injection H; intros; subst; auto; fail).
  all: try (unfold h_str in H; injection H; auto; fail).
  all: try (apply (p_whole _ _ p_id) in H; exact H).
  all: apply app_end in H; rewrite <- !app_assoc in H; use p_header H.
  - use p_enc H. use p_picture H. auto.
  - use p_enc H. use (p_list _ _ p_pair) H. auto.
  - use p_enc H. use p_str H. use p_str H. use p_str H. auto.
  - use p_format H. use (p_list _ _ p_event) H. auto.
  - use p_str H. use p_bytes H. auto.
  - use p_enc H. use p_time H. auto.
  - use p_bytes H. auto.
Qed.
Print Assumptions C246_hash.
(** Equality is an equivalence. *)
Theorem C246_equivalence : forall f g k, frame_eqb f f = true /\ frame_eqb f g = frame_eqb g f /\ (frame_eqb f g = true -> frame_eqb g k = true -> frame_eqb f k = true).
Proof.
  intros f g k. split; [|split].
  - now apply C246_hash.
  - apply Bool.eq_iff_eq_true. rewrite !C246_hash. split; auto.
  - rewrite !C246_hash. congruence.
Qed.
Print Assumptions C246_equivalence.
(** Events and timestamp frames are ordered by their times only: a total preorder. *)
Theorem C246_events : forall a b c, ev_cmp b a = CompOpp (ev_cmp a b) /\ (a = b -> ev_cmp a b = Eq) /\ (ev_cmp a b <> Gt -> ev_cmp b c <> Gt -> ev_cmp a c <> Gt).
Proof. intros [a1 a2] [b1 b2] [c1 c2]. unfold ev_cmp. cbn [ev_time]. split; [apply N.compare_antisym|]. split; [intro E; injection E as -> ->; apply N.compare_refl|]. rewrite !N.compare_le_iff. lia. Qed.
Print Assumptions C246_events.
Theorem C246_times : forall a b c, time_cmp b a = CompOpp (time_cmp a b) /\ (a = b -> time_cmp a b = Eq) /\ (time_cmp a b = Lt -> time_cmp b c = Lt -> time_cmp a c = Lt) /\
  (time_cmp a b = Eq -> snd a = snd b).
Proof.
  intros a b c. unfold time_cmp. destruct (TimestampThm.C19_total_order (snd a) (snd b) (snd c)) as (E & A & T). split; [exact A|]. split; [intros ->; apply (TimestampThm.C19_total_order (snd b) (snd b) (snd b)); reflexivity|]. split; [exact T|]. apply E.
Qed.
Print Assumptions C246_times.
(** Sorted events: chronological, and those of the same time stay in order ([sort] is stable). *)
Theorem C246_sorted : forall l, Permutation l (ev_sort l) /\ StronglySorted (fun a b => ev_time a <= ev_time b) (ev_sort l) /\ forall t, filter (fun e => ev_time e =? t) (ev_sort l) = filter (fun e => ev_time e =? t) l.
Proof.
  assert (P : forall x l, Permutation (x :: l) (ev_insert x l)). { intros x. induction l as [|y l IH]; cbn [ev_insert]; [auto|]. destruct (_ <=? _); auto. rewrite perm_swap. auto. }
  induction l as [|x l (I1 & I2 & I3)]; [repeat split; constructor|]. cbn [ev_sort fold_right]. fold (ev_sort l). split; [rewrite <- P; auto|]. split.
  - clear I1 I3. induction (ev_sort l) as [|y q IH]; cbn [ev_insert]; [repeat constructor|]. apply StronglySorted_inv in I2 as [S F]. destruct (N.leb_spec (ev_time x) (ev_time y)).
    + constructor; [constructor; auto|]. constructor; auto. eapply Forall_impl; [|exact F]. cbn. lia.
    + constructor; auto. rewrite <- P. constructor; [lia|auto].
  - intro t. transitivity (filter (fun e => ev_time e =? t) (x :: ev_sort l)); [|cbn [filter]; now rewrite I3]. clear I1 I3. induction (ev_sort l) as [|y q IH]; cbn [ev_insert]; auto. apply StronglySorted_inv in I2 as [S F].
    destruct (N.leb_spec (ev_time x) (ev_time y)); auto. cbn [filter] in *. rewrite (IH S). destruct (N.eqb_spec (ev_time x) t), (N.eqb_spec (ev_time y) t); auto. lia.
Qed.
Print Assumptions C246_sorted.
Definition FF0 : frame_header := new_header ($"TIT2").
Example C246_ex : frame_eqb (FText FF0 Latin1 ($"a")) (FText FF0 UTF8 ($"b")) = true /\ frame_eqb (FBin FF0 [1]) (FBin FF0 [2]) = false /\
  h_frame (FComment FF0 UTF8 ($"eng") ($"d") ($"x")) = [HN 0; HB ($"eng"); HS ($"d")] /\ ev_sort [mkEv 3 7; mkEv 2 5; mkEv 1 7] = [mkEv 2 5; mkEv 3 7; mkEv 1 7].
Proof. repeat split; vm_compute; reflexivity. Qed.
(** [Ord] documents that [cmp] gives [Equal] exactly for equal values. *)
Theorem C246_order_refuted : (exists a b, ev_cmp a b = Eq /\ a <> b) /\
  (exists h e t h' e' t', time_cmp (h, e, t) (h', e', t') = Eq /\ frame_eqb (FTime h e t) (FTime h' e' t') = false).
Proof.
  split; [exists (mkEv 1 5), (mkEv 2 5); split; [reflexivity|discriminate]|]. exists FF0, Latin1, (mkTs 2024 None None None None None), FF0, UTF8, (mkTs 2024 None None None None None). split; vm_compute; reflexivity.
Qed.
Print Assumptions C246_order_refuted.
(** Flags and encodings count for some frames and not for others. *)
Theorem C246_uniform_refuted : exists h h' s, f_id (FPriv h s []) = f_id (FPriv h' s []) /\ frame_eqb (FPriv h s []) (FPriv h' s []) = false /\ frame_eqb (FUfid h s []) (FUfid h' s []) = true.
Proof. exists (mkFH (Valid ($"PRIV")) ff_default), (mkFH (Valid ($"PRIV")) (mkFF true false false None false None false None)), ($"o"). repeat split; vm_compute; reflexivity. Qed.
Print Assumptions C246_uniform_refuted.
