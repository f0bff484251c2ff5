(** Property theorems for Vorbis comments in memory (C79, C81, C82, C83, C87). *)
From Coq Require Import Permutation.
From Verif Require Import BaseLemmas StrLemmas TextProof PictureProof PictureThm PopmThm TimestampSpec TimestampProof TimestampThm TagThm VorbisModel VorbisThm.

(** The values of a field, in order. Two names are the same field when they only differ in the case of ASCII letters. *)
Definition same_name (a b : str) : Prop := lower a = lower b.
Inductive values_of (k : str) : list (str * str) -> list str -> Prop :=
| vo_nil : values_of k [] []
| vo_hit : forall k' v l r, same_name k' k -> values_of k l r -> values_of k ((k', v) :: l) (v :: r)
| vo_miss : forall k' v l r, ~ same_name k' k -> values_of k l r -> values_of k ((k', v) :: l) r.
(** The name is one [get], [insert] and [push] accept. *)
Definition good_name (k : str) : Prop := k <> [] /\ Forall name_char k.

Definition vals (k : str) (l : list (str * str)) : list str := map snd (filter (vkey_is k) l).
Lemma vkey_iff : forall k i, vkey_is k i = true <-> same_name (fst i) k.
Proof. intros. apply eq_ignore_case_iff. Qed.
Lemma vkey_false : forall k i, ~ same_name (fst i) k -> vkey_is k i = false.
Proof. intros. destruct (vkey_is k i) eqn:E; auto. apply vkey_iff in E. tauto. Qed.
Lemma values_iff : forall k l r, values_of k l r <-> r = vals k l.
Proof.
  intros k l. split.
  - induction 1; unfold vals in *; cbn [filter map]; auto.
    + rewrite (proj2 (vkey_iff k (k', v))) by auto. cbn [map snd]. congruence.
    + rewrite vkey_false by auto. auto.
  - intros ->. induction l as [|[k' v] l IH]; unfold vals in *; cbn [filter map]. constructor.
    destruct (vkey_is k (k', v)) eqn:E; cbn [map snd].
    + apply vkey_iff in E. now constructor.
    + constructor; auto. intro H. apply (vkey_iff k (k', v)) in H. congruence.
Qed.
Lemma get_all_vals : forall t k, vc_get_all t k = vals k (vc_items t).
Proof. reflexivity. Qed.
Lemma vals_app : forall k a b, vals k (a ++ b) = vals k a ++ vals k b.
Proof. intros. unfold vals. now rewrite filter_app, map_app. Qed.
Lemma vals_one : forall k k' v, same_name k' k -> vals k [(k', v)] = [v].
Proof. intros. unfold vals. cbn [filter]. rewrite (proj2 (vkey_iff k (k', v))); auto. Qed.
Lemma vals_one_miss : forall k k' v, ~ same_name k' k -> vals k [(k', v)] = [].
Proof. intros. unfold vals. cbn [filter]. now rewrite vkey_false. Qed.
Definition vwithout (k : str) (l : list (str * str)) : list (str * str) := filter (fun i => negb (vkey_is k i)) l.
Lemma vals_without : forall k l, vals k (vwithout k l) = [].
Proof. intros. unfold vals, vwithout. induction l; auto. cbn [filter]. destruct (vkey_is k a) eqn:E; cbn [negb filter]; rewrite ?E; auto. Qed.
Lemma vals_without_other : forall k k' l, ~ same_name k k' -> vals k' (vwithout k l) = vals k' l.
Proof.
  intros. unfold vals, vwithout. induction l; auto. cbn [filter]. destruct (vkey_is k a) eqn:E; cbn [negb filter].
  - rewrite (vkey_false k'); auto. apply vkey_iff in E. unfold same_name in *. congruence.
  - destruct (vkey_is k' a); cbn [map]; congruence.
Qed.
Lemma vals_perm : forall k l l', Permutation l l' -> Permutation (vals k l) (vals k l').
Proof.
  intros. unfold vals. apply Permutation_map. induction H; cbn [filter]; auto.
  - destruct (vkey_is k x); auto.
  - destruct (vkey_is k x), (vkey_is k y); auto. constructor.
  - etransitivity; eauto.
Qed.
Lemma vc_get_vals : forall t k, verify_key k = true -> vc_get t k = hd_error (vals k (vc_items t)).
Proof.
  intros. unfold vc_get. rewrite H. unfold vals. induction (vc_items t) as [|[a b] l IH]; auto. cbn [find filter].
  destruct (vkey_is k (a, b)); auto.
Qed.

(** C81: reading, inserting and appending *)
Theorem C81_get : forall t k r, values_of k (vc_items t) r -> vc_get_all t k = r /\ (good_name k -> vc_get t k = hd_error r) /\ (~ good_name k -> vc_get t k = None).
Proof.
  intros t k r H. apply values_iff in H. subst. split; auto. split; intro G.
  - apply vc_get_vals. now apply verify_key_iff.
  - unfold vc_get. destruct (verify_key k) eqn:E; auto. apply verify_key_iff in E. exfalso; apply G; exact E.
Qed.
Print Assumptions C81_get.
Theorem C81_insert : forall t k v, vc_vendor (vc_insert k v t) = vc_vendor t /\ vc_pics (vc_insert k v t) = vc_pics t /\
  (~ good_name k -> vc_insert k v t = t) /\
  (good_name k -> forall k' r, values_of k' (vc_items t) r -> values_of k' (vc_items (vc_insert k v t)) (if eq_ignore_case k k' then [v] else r)) /\
  (good_name k -> In (k, v) (vc_items (vc_insert k v t))).
Proof.
  intros. unfold vc_insert. destruct (verify_key k) eqn:E.
  - apply verify_key_iff in E. change (k <> [] /\ Forall name_char k) with (good_name k) in E. split; [reflexivity|]. split; [reflexivity|]. split; [tauto|]. split; intros _.
    + intros k' r H. apply values_iff in H. subst. apply values_iff. cbn [vc_items with_vitems]. change (filter (fun i => negb (vkey_is k i)) (vc_items t)) with (vwithout k (vc_items t)).
      rewrite vals_app. destruct (eq_ignore_case k k') eqn:S.
      * apply eq_ignore_case_iff in S. change (same_name k k') in S. rewrite vals_one by auto.
        replace (vals k' (vwithout k (vc_items t))) with (vals k (vwithout k (vc_items t))). now rewrite vals_without.
        unfold vals. f_equal. apply filter_ext. intro a. unfold vkey_is. destruct (eq_ignore_case (fst a) k') eqn:E2.
        apply eq_ignore_case_iff. apply eq_ignore_case_iff in E2. unfold same_name in S. congruence.
        destruct (eq_ignore_case (fst a) k) eqn:E3; auto. apply eq_ignore_case_iff in E3. rewrite (proj2 (eq_ignore_case_iff _ _)) in E2; [discriminate|]. unfold same_name in S. congruence.
      * assert (~ same_name k k') by (intro X; apply eq_ignore_case_iff in X; congruence).
        rewrite vals_without_other, vals_one_miss, app_nil_r by auto. auto.
    + cbn [vc_items with_vitems]. apply in_or_app. right. now left.
  - assert (~ good_name k) by (intro G; apply verify_key_iff in G; congruence). split; [reflexivity|]. split; [reflexivity|]. split; [auto|]. tauto.
Qed.
Print Assumptions C81_insert.
Theorem C81_push : forall t k v, vc_vendor (vc_push k v t) = vc_vendor t /\ vc_pics (vc_push k v t) = vc_pics t /\
  (~ good_name k -> vc_push k v t = t) /\ (good_name k -> vc_items (vc_push k v t) = vc_items t ++ [(k, v)]).
Proof.
  intros. unfold vc_push. destruct (verify_key k) eqn:E.
  - apply verify_key_iff in E. change (k <> [] /\ Forall name_char k) with (good_name k) in E. split; [reflexivity|]. split; [reflexivity|]. split; [tauto|]. reflexivity.
  - assert (~ good_name k) by (intro G; apply verify_key_iff in G; congruence). split; [reflexivity|]. split; [reflexivity|]. split; [auto|]. tauto.
Qed.
Print Assumptions C81_push.
Definition ex_art : vc := mkVc ($"v") [($"ARTIST", $"a"); ($"Artist", $"b"); ($"TITLE", $"t")] [].
Example C81_ex : vc_get_all ex_art ($"artist") = [$"a"; $"b"] /\ vc_get ex_art ($"artist") = Some ($"a") /\
  vc_items (vc_insert ($"aRTIST") ($"c") ex_art) = [($"TITLE", $"t"); ($"aRTIST", $"c")] /\ vc_insert ($"a=b") [] ex_art = ex_art /\
  vc_get (mkVc [] [([], $"x")] []) [] = None.
Proof. vm_compute. repeat split. Qed.

(** C82: removing *)
Lemma vremove_spec : forall k D A B,
  exists R, vremove_loop (length D) (length (A ++ B)) (length A) k (A ++ B ++ D) =
    (A ++ filter (vkey_is k) D ++ R, length (A ++ filter (vkey_is k) D)) /\ Permutation R (B ++ vwithout k D).
Proof.
  induction D as [|i D IH]; intros A B.
  - cbn [length vremove_loop filter vwithout]. exists B. rewrite !app_nil_r. auto.
  - cbn [length vremove_loop filter vwithout]. rewrite app_assoc, nth_error_mid. unfold vwithout. cbn [filter].
    destruct (vkey_is k i); cbn [negb].
    + destruct B as [|b0 B].
      * rewrite app_nil_r, swap_same. destruct (IH (A ++ [i]) []) as (R & E & P). exists R.
        split; [|exact P]. rewrite app_nil_r in E. repeat (rewrite <- app_assoc in E; cbn [app] in E). rewrite app_length in E at 1 2. cbn [length] in E.
        replace (length A + 1)%nat with (S (length A)) in E by lia. exact E.
      * replace ((A ++ b0 :: B) ++ i :: D) with (A ++ b0 :: B ++ i :: D) by (rewrite <- app_assoc; reflexivity).
        rewrite swap_mid. destruct (IH (A ++ [i]) (B ++ [b0])) as (R & E & P). exists R. split.
        -- repeat (rewrite <- app_assoc in E; cbn [app] in E). cbn [app]. rewrite <- E. f_equal.
           rewrite !app_length. cbn. rewrite !app_length. cbn. lia. rewrite app_length. cbn. lia.
        -- rewrite P, <- app_assoc. cbn [app]. rewrite <- Permutation_middle. reflexivity.
    + destruct (IH A (B ++ [i])) as (R & E & P). exists R. rewrite <- app_assoc in P. split; auto. rewrite <- E.
      f_equal. rewrite !app_length. cbn. lia. rewrite <- !app_assoc. reflexivity.
Qed.
Lemma remove_perm : forall k t, exists R, vc_remove k t = (vals k (vc_items t), with_vitems t R) /\ Permutation R (vwithout k (vc_items t)).
Proof.
  intros. unfold vc_remove. destruct (vremove_spec k (vc_items t) [] []) as (R & E & P). cbn [app length] in E, P. rewrite E.
  rewrite skipn_app, Nat.sub_diag, skipn_all, firstn_app, Nat.sub_diag, firstn_all. cbn [skipn firstn app]. rewrite app_nil_r. exists R. auto.
Qed.
(** The removed values come in order; the items of other fields remain, in some order. *)
Theorem C82_remove_partial : forall k t r, values_of k (vc_items t) r ->
  fst (vc_remove k t) = r /\ vc_vendor (vc_removed k t) = vc_vendor t /\ vc_pics (vc_removed k t) = vc_pics t /\
  Permutation (vc_items (vc_removed k t)) (filter (fun i => negb (eq_ignore_case (fst i) k)) (vc_items t)) /\
  values_of k (vc_items (vc_removed k t)) [] /\
  (forall k' a, ~ same_name k' k -> values_of k' (vc_items t) a -> exists b, values_of k' (vc_items (vc_removed k t)) b /\ Permutation a b).
Proof.
  intros k t r H. apply values_iff in H. subst. unfold vc_removed. destruct (remove_perm k t) as (R & E & P). rewrite E. cbn [fst snd].
  repeat split; auto.
  - apply values_iff. cbn [vc_items with_vitems]. apply (vals_perm k) in P. rewrite vals_without in P. symmetry in P. apply Permutation_nil in P. auto.
  - intros k' a N V. apply values_iff in V. subst. exists (vals k' R). split. now apply values_iff. cbn [vc_items with_vitems].
    apply (vals_perm k') in P. rewrite vals_without_other in P. now symmetry. intro X. apply N. unfold same_name in *. congruence.
Qed.
Print Assumptions C82_remove_partial.
(** Finding: removing one field changes what another one reads as. *)
Theorem C82_other_fields_refuted :
  ~ (forall k k' t, ~ same_name k k' -> good_name k -> good_name k' -> vc_get (vc_removed k t) k' = vc_get t k').
Proof.
  intro H. specialize (H ($"TITLE") ($"ARTIST") ex_art).
  assert (N : ~ same_name ($"TITLE") ($"ARTIST")) by (vm_compute; discriminate).
  assert (G1 : good_name ($"TITLE")) by (apply verify_key_iff; reflexivity).
  assert (G2 : good_name ($"ARTIST")) by (apply verify_key_iff; reflexivity).
  specialize (H N G1 G2). vm_compute in H. discriminate.
Qed.
Print Assumptions C82_other_fields_refuted.
(** So does setting the track number. *)
Theorem C82_set_track_refuted : ~ (forall n t, vc_get (vc_set_track n t) ($"ARTIST") = vc_get t ($"ARTIST")).
Proof. intro H. specialize (H 5 (mkVc [] [($"ARTIST", $"a"); ($"ARTIST", $"b"); (VTRACK, $"4")] [])). vm_compute in H. discriminate. Qed.
Print Assumptions C82_set_track_refuted.
Example C82_ex : vc_remove ($"artist") ex_art = ([$"a"; $"b"], mkVc ($"v") [($"TITLE", $"t")] []) /\
  vc_remove ($"title") ex_art = ([$"t"], mkVc ($"v") [($"Artist", $"b"); ($"ARTIST", $"a")] []).
Proof. vm_compute. repeat split. Qed.

(** C81, accessors. A field with at most one value: *)
Definition at_most_one (t : vc) (k : str) : Prop := (length (vals k (vc_items t)) <= 1)%nat.
Lemma removed_get : forall k t, vals k (vc_items (vc_removed k t)) = [].
Proof. intros. unfold vc_removed. destruct (remove_perm k t) as (R & E & P). rewrite E. cbn. apply (vals_perm k) in P. rewrite vals_without in P. symmetry in P. now apply Permutation_nil in P. Qed.
Lemma removed_other_perm : forall k k' t, ~ same_name k k' -> Permutation (vals k' (vc_items (vc_removed k t))) (vals k' (vc_items t)).
Proof. intros. unfold vc_removed. destruct (remove_perm k t) as (R & E & P). rewrite E. cbn. apply (vals_perm k') in P. now rewrite vals_without_other in P. Qed.
Lemma perm_small : forall A (a b : list A), Permutation a b -> (length b <= 1)%nat -> a = b.
Proof.
  intros. destruct b as [|x [|? b]]; cbn in H0; try lia.
  symmetry in H. now apply Permutation_nil in H. symmetry in H. now apply Permutation_length_1_inv in H.
Qed.
Lemma removed_other : forall k k' t, ~ same_name k k' -> at_most_one t k' -> vals k' (vc_items (vc_removed k t)) = vals k' (vc_items t).
Proof. intros. apply perm_small; auto. now apply removed_other_perm. Qed.
Lemma insert_get : forall k v t, verify_key k = true -> vals k (vc_items (vc_insert k v t)) = [v].
Proof.
  intros. unfold vc_insert. rewrite H. cbn [vc_items with_vitems]. rewrite vals_app, vals_one by reflexivity.
  change (filter (fun i => negb (vkey_is k i)) (vc_items t)) with (vwithout k (vc_items t)). now rewrite vals_without.
Qed.
Lemma insert_other : forall k v k' t, ~ same_name k k' -> vals k' (vc_items (vc_insert k v t)) = vals k' (vc_items t).
Proof.
  intros. unfold vc_insert. destruct (verify_key k); auto. cbn [vc_items with_vitems]. rewrite vals_app, vals_one_miss, app_nil_r by auto. now apply vals_without_other.
Qed.
Ltac names := unfold same_name; vm_compute; discriminate.
Lemma get_ok : forall t k, verify_key k = true -> forall r, vals k (vc_items t) = r -> vc_get t k = hd_error r.
Proof. intros. subst. now apply vc_get_vals. Qed.

Theorem C81_numbers : forall t n, n <= U32_MAX ->
  vc_track (vc_set_track n t) = Some n /\ vc_track_total (vc_set_track_total n t) = Some n /\
  vc_disk (vc_set_disk n t) = Some n /\ vc_disk_total (vc_set_disk_total n t) = Some n /\
  vc_track (vc_remove_track t) = None /\ vc_track_total (vc_remove_track_total t) = None /\
  vc_disk (vc_remove_disk t) = None /\ vc_disk_total (vc_remove_disk_total t) = None.
Proof.
  intros t n B.
  assert (P : parse_uint U32_MAX (to_dec n) = Some n) by now apply parse_uint_to_dec.
  assert (T1 : forall a b x t, verify_key a = true -> ~ same_name b a -> get_or (vc_removed b (vc_insert a x t)) a b = Some x).
  { intros. unfold get_or. rewrite (get_ok _ a H [x]); auto. rewrite removed_other; auto. apply insert_get; auto. unfold at_most_one. now rewrite insert_get. }
  assert (T2 : forall a b x t, verify_key a = true -> get_or (vc_insert a x t) a b = Some x).
  { intros. unfold get_or. rewrite (get_ok _ a H [x]); auto. now apply insert_get. }
  assert (T3 : forall a b t, verify_key a = true -> verify_key b = true -> ~ same_name b a -> get_or (vc_removed b (vc_removed a t)) a b = None).
  { intros. unfold get_or. rewrite (get_ok _ a H []), (get_ok _ b H0 []); auto. apply removed_get.
    rewrite removed_other; auto. apply removed_get. unfold at_most_one. rewrite removed_get. cbn. lia. }
  split; [|split; [|split; [|split; [|split; [|split; [|split]]]]]].
  - unfold vc_track, vc_set_track. rewrite T2 by reflexivity. exact P.
  - unfold vc_track_total, vc_set_track_total. rewrite T1 by (try reflexivity; names). exact P.
  - unfold vc_disk, vc_set_disk. rewrite (get_ok _ VDISC eq_refl [to_dec n]). exact P. now apply insert_get.
  - unfold vc_disk_total, vc_set_disk_total. rewrite T1 by (try reflexivity; names). exact P.
  - unfold vc_track, vc_remove_track. rewrite T3 by (try reflexivity; names). reflexivity.
  - unfold vc_track_total, vc_remove_track_total. rewrite T3 by (try reflexivity; names). reflexivity.
  - unfold vc_disk, vc_remove_disk. rewrite (get_ok _ VDISC eq_refl []). reflexivity. apply removed_get.
  - unfold vc_disk_total, vc_remove_disk_total. rewrite T3 by (try reflexivity; names). reflexivity.
Qed.
Print Assumptions C81_numbers.
(** A date that is not valid does not have to come back (C64). *)
Theorem C81_date_partial : forall t d, ts_verify d = Ok tt ->
  vc_date (vc_set_date d t) = Some d /\ vc_date (vc_remove_date t) = None.
Proof.
  intros t d V. pose proof (proj1 (C18_roundtrip d Relaxed V)) as R. unfold vc_date, get_or. split.
  - unfold vc_set_date. rewrite (get_ok _ VDATE eq_refl [ts_display d]).
    + cbn [hd_error]. rewrite utf8_ascii by apply display_ascii. now rewrite R.
    + assert (N : ~ same_name VYEAR VDATE) by names. rewrite removed_other; auto. now apply insert_get. unfold at_most_one. now rewrite insert_get.
  - unfold vc_remove_date. rewrite (get_ok _ VDATE eq_refl []), (get_ok _ VYEAR eq_refl []); auto. apply removed_get.
    assert (N : ~ same_name VYEAR VDATE) by names. rewrite removed_other; auto. apply removed_get. unfold at_most_one. rewrite removed_get. cbn. lia.
Qed.
Print Assumptions C81_date_partial.
(** Each accessor with the names of the fields it may change; the others stay as they are, if they have a single value. *)
Definition accessors (n : N) (d : timestamp) : list ((vc -> vc) * list str) :=
  [ (vc_set_track n, [VTRACK; VTRACK2]); (vc_remove_track, [VTRACK; VTRACK2]);
    (vc_set_track_total n, [VTRACKTOTAL; VTRACKTOTAL2]); (vc_remove_track_total, [VTRACKTOTAL; VTRACKTOTAL2]);
    (vc_set_disk n, [VDISC]); (vc_remove_disk, [VDISC]);
    (vc_set_disk_total n, [VDISCTOTAL; VDISCTOTAL2]); (vc_remove_disk_total, [VDISCTOTAL; VDISCTOTAL2]);
    (vc_set_date d, [VDATE; VYEAR]); (vc_remove_date, [VDATE; VYEAR]) ].
Theorem C81_independent_partial : forall n d f ns t k, In (f, ns) (accessors n d) -> Forall (fun x => ~ same_name x k) ns ->
  (forall r, values_of k (vc_items t) r -> (length r <= 1)%nat -> values_of k (vc_items (f t)) r) /\
  (forall r, values_of k (vc_items t) r -> exists r', values_of k (vc_items (f t)) r' /\ Permutation r r').
Proof.
  intros n d f ns t k I F.
  assert (P : Permutation (vals k (vc_items (f t))) (vals k (vc_items t))).
  { unfold accessors in I. cbn [In] in I.
    repeat (destruct I as [E|I]; [inversion E; subst; clear E;
      repeat match goal with H : Forall _ (_ :: _) |- _ => inversion H; subst; clear H end;
      unfold vc_set_track, vc_remove_track, vc_set_track_total, vc_remove_track_total, vc_set_disk, vc_remove_disk, vc_set_disk_total, vc_remove_disk_total, vc_set_date, vc_remove_date;
      repeat (first [rewrite removed_other_perm by assumption | rewrite insert_other by assumption]); reflexivity|]).
    destruct I. }
  split; intros r V; apply values_iff in V; subst.
  - intro L. apply values_iff. symmetry. now apply perm_small.
  - eexists. split. now apply values_iff. now symmetry.
Qed.
Print Assumptions C81_independent_partial.
Example C81_numbers_ex : vc_track (vc_set_track 7 ex_art) = Some 7 /\ vc_track (mkVc [] [(VTRACK, $"x"); (VTRACK2, $"3")] []) = None /\
  vc_track (mkVc [] [($"tracknum", $"3")] []) = Some 3 /\
  vc_items (vc_set_disk_total 2 (mkVc [] [(VDISCTOTAL2, $"9"); ($"A", $"b")] [])) = [($"A", $"b"); (VDISCTOTAL, $"2")].
Proof. vm_compute. repeat split. Qed.

(** C79: a number and a total in one field *)
Definition number_name (is_track : bool) : str := if is_track then $"TRACKNUMBER" else $"DISCNUMBER".
Lemma Forall_last : forall A (P : A -> Prop) l d, Forall P l -> P d -> P (last l d).
Proof. induction l as [|x l IH]; intros d F D; auto. inversion F; subst. destruct l; auto. apply IH; auto. Qed.
Lemma no_eq_name : forall a b, same_name a b -> ~ In 61 (lower b) -> ~ In 61 a.
Proof. intros a b S N I. apply N. rewrite <- S. unfold lower. apply in_map_iff. exists 61. auto. Qed.
Lemma same_eqi : forall a b c, same_name a b -> eq_ignore_case a c = eq_ignore_case b c.
Proof.
  intros. destruct (eq_ignore_case b c) eqn:E.
  - apply eq_ignore_case_iff. apply eq_ignore_case_iff in E. unfold same_name in H. congruence.
  - apply eqi_false. intro X. rewrite (proj2 (eq_ignore_case_iff _ _)) in E; [discriminate|]. unfold same_name in H. congruence.
Qed.
(** What is done with a field of that name *)
Definition number_read (o : vopts) (t : vc) (is_track : bool) (v : str) : vc :=
  if negb (vo_implicit o) then with_vitems t (vc_items t ++ [(number_name is_track, v)]) else
  let (current, total) := number_pair v in
  let t := match total with Some n => if is_track then vc_set_track_total n t else vc_set_disk_total n t | None => t end in
  match current with Some n => if is_track then vc_set_track n t else vc_set_disk n t | None => with_vitems t (vc_items t ++ [(number_name is_track, v)]) end.
Lemma read_number : forall o t name is_track v, same_name name (number_name is_track) -> str_ok v -> last v 1 <> 0 ->
  read_comment o t (name ++ [61] ++ utf8_enc v) = Ok (number_read o t is_track v).
Proof.
  intros o t name is_track v S V L. unfold read_comment. cbn [app]. rewrite split_once_app.
  2:{ apply (no_eq_name name (number_name is_track)); auto. destruct is_track; vm_compute; intuition discriminate. }
  rewrite !(same_eqi _ _ _ S). unfold vdec. rewrite utf8_field by auto. unfold number_read. destruct is_track.
  - change (eq_ignore_case (number_name true) MBP) with false. change (eq_ignore_case (number_name true) COVERART) with false.
    change (eq_ignore_case (number_name true) VTRACK) with true. cbn [orb]. destruct (vo_implicit o); cbn [negb]; auto. destruct (number_pair v) as [[c|] [n|]]; reflexivity.
  - change (eq_ignore_case (number_name false) MBP) with false. change (eq_ignore_case (number_name false) COVERART) with false.
    change (eq_ignore_case (number_name false) VTRACK) with false. change (eq_ignore_case (number_name false) VDISC) with true. cbn [orb].
    destruct (vo_implicit o); cbn [negb]; auto. destruct (number_pair v) as [[c|] [n|]]; reflexivity.
Qed.
Theorem C79_pair : forall o t a b name is_track, vo_implicit o = true -> a <= U32_MAX -> b <= U32_MAX -> same_name name (number_name is_track) ->
  exists t', read_comment o t (name ++ [61] ++ to_dec a ++ [47] ++ to_dec b) = Ok t' /\
    (if is_track then vc_track t' = Some a /\ vc_track_total t' = Some b else vc_disk t' = Some a /\ vc_disk_total t' = Some b) /\
    vc_vendor t' = vc_vendor t /\ vc_pics t' = vc_pics t.
Proof.
  intros o t a b name is_track I A B SN. set (v := to_dec a ++ 47 :: to_dec b).
  assert (D : Forall (fun c => 47 <= c <= 57) v).
  { unfold v. apply Forall_app. split; [|constructor; [lia|]]; (eapply Forall_impl; [|apply to_dec_spec]); unfold is_digit; lia. }
  assert (E : read_comment o t (name ++ [61] ++ utf8_enc v) = Ok (number_read o t is_track v)).
  { apply read_number; auto. eapply Forall_impl; [|exact D]. cbv beta. unfold scalar, scalarb. lia.
    assert (L : (fun c => c <> 0) (last v 1)) by (apply Forall_last; [eapply Forall_impl; [|exact D]; cbn; lia|lia]). exact L. }
  rewrite utf8_ascii in E by (eapply Forall_impl; [|exact D]; cbn; lia). exists (number_read o t is_track v). split; [exact E|]. clear E.
  unfold number_read, number_pair. rewrite I. cbn [negb]. unfold v. rewrite split_once_app by (apply to_dec_no; reflexivity).
  rewrite !parse_uint_to_dec by auto.
  assert (VK : forall x, parse_uint U32_MAX (to_dec b) = Some x -> x = b) by (rewrite parse_uint_to_dec by auto; congruence).
  assert (RM : forall k u, vc_vendor (vc_removed k u) = vc_vendor u /\ vc_pics (vc_removed k u) = vc_pics u).
  { intros. unfold vc_removed. destruct (remove_perm k u) as (R & -> & _). auto. }
  assert (IN : forall k x u, vc_vendor (vc_insert k x u) = vc_vendor u /\ vc_pics (vc_insert k x u) = vc_pics u).
  { intros. unfold vc_insert. destruct (verify_key k); auto. }
  assert (TT : forall k1 k2, verify_key k1 = true -> ~ same_name k2 k1 -> vals k1 (vc_items (vc_removed k2 (vc_insert k1 (to_dec b) t))) = [to_dec b]).
  { intros. rewrite removed_other; auto. now apply insert_get. unfold at_most_one. now rewrite insert_get. }
  destruct is_track.
  - split; [split|].
    + now apply C81_numbers.
    + unfold vc_track_total, get_or. rewrite (get_ok _ VTRACKTOTAL eq_refl [to_dec b]). cbn [hd_error parse_opt]. now apply parse_uint_to_dec.
      unfold vc_set_track, vc_set_track_total, vc_remove_track. set (u := vc_removed VTRACKTOTAL2 _).
      assert (U : vals VTRACKTOTAL (vc_items u) = [to_dec b]) by (apply TT; [reflexivity|names]).
      rewrite insert_other by names.
      assert (U2 : vals VTRACKTOTAL (vc_items (vc_removed VTRACK u)) = [to_dec b]) by (rewrite removed_other; [exact U|names|unfold at_most_one; now rewrite U]).
      rewrite removed_other; [exact U2|names|unfold at_most_one; now rewrite U2].
    + unfold vc_set_track, vc_set_track_total, vc_remove_track. split.
      * rewrite (proj1 (IN _ _ _)), !(proj1 (RM _ _)), (proj1 (IN _ _ _)). auto.
      * rewrite (proj2 (IN _ _ _)), !(proj2 (RM _ _)), (proj2 (IN _ _ _)). auto.
  - split; [split|].
    + now apply C81_numbers.
    + unfold vc_disk_total, get_or. rewrite (get_ok _ VDISCTOTAL eq_refl [to_dec b]). cbn [hd_error parse_opt]. now apply parse_uint_to_dec.
      unfold vc_set_disk, vc_set_disk_total. rewrite insert_other by names. apply TT; [reflexivity|names].
    + unfold vc_set_disk, vc_set_disk_total. split.
      * rewrite (proj1 (IN _ _ _)), !(proj1 (RM _ _)), (proj1 (IN _ _ _)). auto.
      * rewrite (proj2 (IN _ _ _)), !(proj2 (RM _ _)), (proj2 (IN _ _ _)). auto.
Qed.
Print Assumptions C79_pair.
(** With the conversion turned off the text is kept. So is a text that is no number. *)
Theorem C79_kept : forall o t v name is_track, same_name name (number_name is_track) -> str_ok v -> last v 1 <> 0 ->
  vo_implicit o = false \/ (~ In 47 v /\ parse_uint U32_MAX v = None) ->
  read_comment o t (name ++ [61] ++ utf8_enc v) = Ok (with_vitems t (vc_items t ++ [(number_name is_track, v)])).
Proof.
  intros o t v name is_track S V L K. rewrite (read_number _ _ _ is_track) by auto. f_equal. unfold number_read.
  destruct (vo_implicit o); auto. destruct K as [K|[K1 K2]]; [discriminate|]. cbn [negb]. unfold number_pair.
  destruct (split_once 47 v) as [[x y]|] eqn:E. apply split_once_some in E. exfalso. apply K1. rewrite E. apply in_or_app. right. now left.
  rewrite K2. reflexivity.
Qed.
Print Assumptions C79_kept.
(** Finding: a second field of the name takes the place of the first. *)
Theorem C79_all_kept_refuted : ~ (forall t v w o, read_comment o t (VTRACK ++ [61] ++ v) = Ok w -> forall x, In x (vals VTRACK (vc_items t)) -> In x (vals VTRACK (vc_items w))).
Proof.
  intro H. specialize (H (mkVc [] [(VTRACK, $"1")] []) ($"2") (mkVc [] [(VTRACK, $"2")] []) (mkVo true true Relaxed)).
  assert (E : read_comment (mkVo true true Relaxed) (mkVc [] [(VTRACK, $"1")] []) (VTRACK ++ [61] ++ $"2") = Ok (mkVc [] [(VTRACK, $"2")] [])) by (vm_compute; reflexivity).
  specialize (H E ($"1")). vm_compute in H. intuition discriminate.
Qed.
Print Assumptions C79_all_kept_refuted.
Example C79_ex : read_comment (mkVo true true Strict) ex_art ($"tracknumber=3/10") =
    Ok (mkVc ($"v") (vc_items ex_art ++ [(VTRACKTOTAL, $"10"); (VTRACK, $"3")]) []) /\
  read_comment (mkVo true false Strict) ex_art ($"tracknumber=3/10") = Ok (mkVc ($"v") (vc_items ex_art ++ [(VTRACK, $"3/10")]) []) /\
  read_comment (mkVo true true Strict) ex_art ($"DISCNUMBER=A/2") = Ok (mkVc ($"v") (vc_items ex_art ++ [(VDISCTOTAL, $"2"); (VDISC, $"A/2")]) []).
Proof. vm_compute. repeat split. Qed.

(** C83: whatever is read has names that can be written *)
Lemma read_comment_names : forall o t c t', Forall (fun i => Forall name_char (fst i)) (vc_items t) -> read_comment o t c = Ok t' ->
  Forall (fun i => Forall name_char (fst i)) (vc_items t').
Proof.
  assert (AP : forall (t : vc) k v, Forall (fun i : str * str => Forall name_char (fst i)) (vc_items t) -> Forall name_char k -> Forall (fun i => Forall name_char (fst i)) (vc_items (with_vitems t (vc_items t ++ [(k, v)])))).
  { intros. cbn. apply Forall_app. auto. }
  assert (IN : forall k v (t : vc), Forall (fun i : str * str => Forall name_char (fst i)) (vc_items t) -> Forall (fun i => Forall name_char (fst i)) (vc_items (vc_insert k v t))).
  { intros. unfold vc_insert. destruct (verify_key k) eqn:E; auto. apply verify_key_iff in E as [_ E]. cbn. apply Forall_app. split; auto.
    rewrite Forall_forall in *. intros x Hx. apply filter_In in Hx. apply H. tauto. }
  assert (RM : forall k (t : vc), Forall (fun i : str * str => Forall name_char (fst i)) (vc_items t) -> Forall (fun i => Forall name_char (fst i)) (vc_items (vc_removed k t))).
  { intros. unfold vc_removed. destruct (remove_perm k t) as (R & -> & P). cbn. rewrite Forall_forall in *. intros x Hx. apply H.
    apply (Permutation_in x) in P; auto. unfold vwithout in P. apply filter_In in P. tauto. }
  intros o t c t' F H. unfold read_comment, strictly in H. destruct (split_once 61 c) as [[k v]|] eqn:E; [|congruence].
  destruct (eq_ignore_case k MBP). { destruct (negb _); [congruence|]. destruct (from_flac_bytes _ _ _); [inversion H; subst; exact F| |discriminate]. destruct (is_strict _); [discriminate|congruence]. }
  destruct (eq_ignore_case k COVERART).
  { destruct (negb _); [congruence|]. destruct (b64_decode v) as [d|].
    - destruct (mimetype_from_bin d); try discriminate; inversion H; subst; exact F.
    - destruct (is_strict _); [discriminate|congruence]. }
  destruct (eq_ignore_case k VTRACK || eq_ignore_case k VDISC).
  { destruct (vdec v) as [s| |]; [|destruct (is_strict _); [discriminate|congruence]|discriminate].
    assert (KN : Forall name_char (if eq_ignore_case k VTRACK then VTRACK else VDISC)) by (destruct (eq_ignore_case k VTRACK); apply valid_key_iff; reflexivity).
    destruct (vo_implicit o); cbn [negb] in H; [|inversion H; subst; apply AP; auto].
    destruct (number_pair s) as [c0 n0]. inversion H; subst; clear H.
    set (u := match n0 with Some n => _ | None => t end).
    assert (FU : Forall (fun i => Forall name_char (fst i)) (vc_items u)).
    { unfold u. destruct n0; auto. destruct (eq_ignore_case k VTRACK); unfold vc_set_track_total, vc_set_disk_total; auto. }
    destruct c0; [|apply AP; auto]. destruct (eq_ignore_case k VTRACK); unfold vc_set_track, vc_remove_track, vc_set_disk; auto. }
  destruct (valid_key k) eqn:EK; [|destruct (is_strict _); [discriminate|congruence]].
  destruct (vdec v) as [s| |]; [|destruct (is_strict _); [discriminate|congruence]|discriminate]. inversion H; subst. apply AP; auto. now apply valid_key_iff.
Qed.
Theorem C83_names_partial : forall o len r t, read_comments o len r = Ok t -> Forall (fun i => Forall name_char (fst i)) (vc_items t) /\
  forall i, In i (vc_items t) -> fst i <> [] -> exists v, vc_get t (fst i) = Some v /\ In (snd i) (vc_get_all t (fst i)).
Proof.
  intros o len r t H.
  assert (F : Forall (fun i => Forall name_char (fst i)) (vc_items t)).
  { unfold read_comments in H.
    destruct (read_le 4 r) as [[vlen r1]|]; cbn [vrd bind] in H; [|discriminate]. destruct (len <? vlen); [discriminate|].
    destruct (read_exact vlen r1) as [[vb r2]|]; cbn [vrd bind] in H; [|discriminate].
    destruct (read_vendor _ vb) as [vn| |]; cbn [bind] in H; try discriminate.
    destruct (read_le 4 r2) as [[n r3]|]; cbn [vrd bind] in H; [|discriminate]. destruct (_ <? n); [discriminate|].
    assert (F0 : Forall (fun i => Forall name_char (fst i)) (vc_items (mkVc vn [] []))) by constructor.
    revert H F0. generalize (mkVc vn [] []) as u. generalize (len - vlen) as l. generalize (N.to_nat n) as m. revert t. clear. revert r3.
    intros r t m. revert r t. induction m; intros r t len u H F; cbn [read_comment_list] in H; [congruence|].
    destruct (read_le 4 r) as [[clen r1]|]; cbn [vrd bind] in H; [|discriminate]. destruct (len <? clen); [discriminate|].
    destruct (read_exact clen r1) as [[c r2]|]; cbn [vrd bind] in H; [|discriminate].
    destruct (read_comment o u c) as [u'| |] eqn:EC; cbn [bind] in H; try discriminate. eapply IHm; [exact H|]. eapply read_comment_names; eauto. }
  split; auto. intros i I NE. rewrite Forall_forall in F.
  assert (G : verify_key (fst i) = true) by (apply verify_key_iff; auto).
  assert (V : In (snd i) (vc_get_all t (fst i))). { unfold vc_get_all. apply in_map. apply filter_In. split; auto. now apply vkey_iff. }
  rewrite (vc_get_vals _ _ G). rewrite get_all_vals in *. destruct (vals (fst i) (vc_items t)) as [|x l] eqn:E. destruct V. exists x. auto.
Qed.
Print Assumptions C83_names_partial.
(** Finding: a comment that begins with '=' is kept, but [get] never returns it and [insert] and [push] do not accept its name. *)
Theorem C83_reachable_refuted : ~ (forall o len r t, read_comments o len r = Ok t -> forall i, In i (vc_items t) -> exists v, vc_get t (fst i) = Some v).
Proof.
  intro H. set (r := le_enc 4 0 ++ le_enc 4 1 ++ comment_bytes ($"=x")).
  assert (E : read_comments (mkVo true true Strict) 14 r = Ok (mkVc [] [([], $"x")] [])) by (vm_compute; reflexivity).
  destruct (H _ _ _ _ E ([], $"x")) as [v V]. now left. discriminate.
Qed.
Print Assumptions C83_reachable_refuted.
Example C83_ex : read_comments (mkVo true true Relaxed) 100 (le_enc 4 0 ++ le_enc 4 3 ++ comment_bytes ($"a=x") ++ comment_bytes ([233] ++ $"=x") ++ comment_bytes ($"B=y")) =
  Ok (mkVc [] [($"a", $"x"); ($"B", $"y")] []).
Proof. vm_compute. reflexivity. Qed.

(** C87: picture storage *)
Definition type_is (p : pic_type) (x : picture * pic_info) : Prop := p_type (fst x) = p.
(** At most one icon of each of the two kinds. *)
Definition icons_unique (l : list (picture * pic_info)) : Prop :=
  forall p, p = PIcon \/ p = POtherIcon -> (length (filter (fun x => pt_eqb (p_type (fst x)) p) l) <= 1)%nat.
Lemma pt_eqb_refl : forall p, pt_eqb p p = true.
Proof. destruct p; try reflexivity. apply N.eqb_refl. Qed.
Lemma pt_eqb_eq : forall a b, pt_eqb a b = true <-> a = b.
Proof. split. destruct a, b; cbn; intros; try discriminate; auto. apply N.eqb_eq in H. congruence. intros ->. apply pt_eqb_refl. Qed.
Lemma remove_first_spec : forall p l r l', remove_first_type p l = (r, l') ->
  match r with
  | None => l' = l /\ Forall (fun x => ~ type_is p x) l
  | Some x => exists a b, l = a ++ x :: b /\ l' = a ++ b /\ type_is p x /\ Forall (fun x => ~ type_is p x) a
  end.
Proof.
  induction l as [|x l IH]; cbn [remove_first_type]; intros r l' H. inversion H; subst; auto.
  destruct (pt_eqb (p_type (fst x)) p) eqn:E.
  - inversion H; subst. exists [], l'. apply pt_eqb_eq in E. auto.
  - assert (N : ~ type_is p x) by (intro T; apply pt_eqb_eq in T; congruence).
    destruct (remove_first_type p l) as [r0 l0] eqn:E0. inversion H; subst. specialize (IH _ _ eq_refl). destruct r.
    + destruct IH as (a & b & -> & -> & T & F). exists (x :: a), b. repeat split; auto.
    + destruct IH as [-> F]. auto.
Qed.
(** Inserting with the information given: the picture is appended; an icon takes the place of the first icon of its kind, which
    is returned. *)
Theorem C87_insert : forall p i l,
  exists r, ps_insert p (Some i) l = (Ok r, snd (ps_insert p (Some i) l)) /\
  match r with
  | None => snd (ps_insert p (Some i) l) = l ++ [(p, i)]
  | Some x => (p_type p = PIcon \/ p_type p = POtherIcon) /\ exists a b, l = a ++ x :: b /\ snd (ps_insert p (Some i) l) = a ++ b ++ [(p, i)] /\
      type_is (p_type p) x /\ Forall (fun x => ~ type_is (p_type p) x) a
  end.
Proof.
  intros. unfold ps_insert. destruct (is_icon (p_type p)) eqn:E.
  - destruct (remove_first_type (p_type p) l) as [r l'] eqn:R. apply remove_first_spec in R. exists r. cbn [snd]. split; auto. destruct r.
    + unfold is_icon in E. split. apply orb_prop in E as [E|E]; apply pt_eqb_eq in E; auto.
      destruct R as (a & b & -> & -> & T & F). exists a, b. rewrite <- app_assoc. auto.
    + destruct R as [-> _]. auto.
  - exists None. cbn [snd]. auto.
Qed.
Print Assumptions C87_insert.
Theorem C87_icons_unique : forall p i l, icons_unique l -> icons_unique (snd (ps_insert p i l)).
Proof.
  intros p i l U.
  assert (X : forall l', (l' = l \/ exists a x b, l = a ++ x :: b /\ l' = a ++ b) -> icons_unique l').
  { intros l' [->|(a & x & b & -> & ->)]; auto. intros q Q. specialize (U q Q). rewrite filter_app in *. cbn [filter] in U.
    destruct (pt_eqb (p_type (fst x)) q); rewrite app_length in *; cbn [length] in *; lia. }
  unfold ps_insert. destruct (is_icon (p_type p)) eqn:E.
  - destruct (remove_first_type (p_type p) l) as [r l'] eqn:R. apply remove_first_spec in R.
    assert (L' : icons_unique l') by (apply X; destruct r; [right|left]; [destruct R as (a & b & -> & -> & _); eauto|tauto]).
    assert (NO : (length (filter (fun x => pt_eqb (p_type (fst x)) (p_type p)) l') = 0)%nat).
    { unfold is_icon in E. assert (Q : p_type p = PIcon \/ p_type p = POtherIcon) by (apply orb_prop in E as [E|E]; apply pt_eqb_eq in E; auto).
      specialize (U _ Q). destruct r as [x|].
      - destruct R as (a & b & -> & -> & T & F). rewrite filter_app in *. cbn [filter] in U. rewrite (proj2 (pt_eqb_eq _ _) T) in U. rewrite app_length in *. cbn [length] in U. lia.
      - destruct R as [-> F]. clear - F. induction F; auto. cbn [filter]. destruct (pt_eqb (p_type (fst x)) (p_type p)) eqn:G; auto. apply pt_eqb_eq in G. tauto. }
    destruct (match i with Some i => Ok i | None => info_from_picture p end); cbn [snd]; auto.
    intros q Q. rewrite filter_app, app_length. cbn [filter fst]. destruct (pt_eqb (p_type p) q) eqn:G.
    + apply pt_eqb_eq in G. subst. rewrite NO. cbn. lia.
    + cbn [length]. specialize (L' q Q). lia.
  - destruct (match i with Some i => Ok i | None => info_from_picture p end); cbn [snd]; auto.
    intros q Q. rewrite filter_app, app_length. cbn [filter fst]. specialize (U q Q). destruct (pt_eqb (p_type p) q) eqn:G.
    + apply pt_eqb_eq in G. unfold is_icon in E. apply orb_false_elim in E as [E1 E2]. destruct Q; subst q; rewrite <- G, pt_eqb_refl in *; congruence.
    + cbn [length]. lia.
Qed.
Print Assumptions C87_icons_unique.
(** Finding: an insertion that fails has removed the icon. *)
Definition no_image : picture := mkPic PIcon (Some Png) None [0; 0; 0].
Theorem C87_failure_refuted : ~ (forall p i l e, fst (ps_insert p i l) = Err e -> snd (ps_insert p i l) = l).
Proof.
  intro H. destruct (fst (ps_insert no_image None [(no_image, info_default)])) as [r|e|] eqn:E; try (vm_compute in E; discriminate).
  specialize (H _ _ _ _ E). vm_compute in H. discriminate.
Qed.
Print Assumptions C87_failure_refuted.
(** Finding: replacing a picture by index can make a second icon. *)
Theorem C87_set_refuted : ~ (forall n p i l, icons_unique l -> icons_unique (ps_set n p i l)).
Proof.
  intro H. set (l := [(mkPic PIcon None None [1], info_default); (mkPic POther None None [2], info_default)]).
  assert (U : icons_unique l) by (intros p [->| ->]; vm_compute; lia).
  specialize (H 1 (mkPic PIcon None None [3]) info_default l U PIcon (or_introl eq_refl)). vm_compute in H. lia.
Qed.
Print Assumptions C87_set_refuted.
Theorem C87_set_partial : forall n p i l, ps_set n p i l = (if n <? lenN l then firstn (N.to_nat n) l ++ [(p, i)] ++ skipn (S (N.to_nat n)) l else snd (ps_insert p (Some i) l)).
Proof.
  intros. unfold ps_set. destruct (N.leb_spec (lenN l) n), (N.ltb_spec n (lenN l)); try lia; auto.
  assert (N.to_nat n < length l)%nat by (unfold lenN in *; lia). clear - H1. revert l H1. induction (N.to_nat n); intros [|x l] H1; cbn in *; try lia; auto.
  f_equal. apply IHn0. lia.
Qed.
Print Assumptions C87_set_partial.
Theorem C87_remove_type : forall p l x, In x (ps_remove_type p l) <-> In x l /\ ~ type_is p x.
Proof.
  intros. unfold ps_remove_type. rewrite filter_In. unfold type_is. destruct (pt_eqb (p_type (fst x)) p) eqn:E; cbn [negb].
  - apply pt_eqb_eq in E. intuition congruence.
  - split; [intros [A _]; split; auto; intro T; apply pt_eqb_eq in T; congruence|tauto].
Qed.
Print Assumptions C87_remove_type.
Example C87_ex : ps_insert (mkPic PIcon None None [3]) (Some info_default) [(mkPic PIcon None None [1], info_default); (mkPic POther None None [2], info_default)] =
  (Ok (Some (mkPic PIcon None None [1], info_default)), [(mkPic POther None None [2], info_default); (mkPic PIcon None None [3], info_default)]).
Proof. vm_compute. reflexivity. Qed.
