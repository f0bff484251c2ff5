(** Lemmas for the APE tag: uniqueness of keys, values joined with NULs, number pairs, reading back what is written. *)
From Verif Require Import BaseLemmas StrLemmas TextProof PictureProof PictureThm ItemKeyThm TagThm ApeModel.
From Verif Require Import TagModel.

(** ** Keys *)
Definition fold_keys (l : list ape_item) : list str := map (fun i => lower (ai_key i)) l.
Lemma key_is_iff : forall k i, key_is k i = true <-> lower (ai_key i) = lower k.
Proof. intros. unfold key_is. apply eq_ignore_case_iff. Qed.
Lemma fold_keys_app : forall a b, fold_keys (a ++ b) = fold_keys a ++ fold_keys b.
Proof. intros. apply map_app. Qed.
Lemma fold_keys_filter : forall f l x, In x (fold_keys (filter f l)) -> In x (fold_keys l).
Proof. unfold fold_keys. intros f l x I. apply in_map_iff in I as (i & <- & I). apply filter_In in I as [I _]. apply (in_map (fun i => lower (ai_key i))). auto. Qed.
Lemma nodup_filter : forall f l, NoDup (fold_keys l) -> NoDup (fold_keys (filter f l)).
Proof.
  induction l as [|i l IH]; cbn; intros; auto. inv H. destruct (f i); auto. cbn. constructor; auto. intro I. apply fold_keys_filter in I. auto.
Qed.
Lemma remove_keys : forall k t x, In x (fold_keys (at_items (ape_remove k t))) <-> In x (fold_keys (at_items t)) /\ x <> lower k.
Proof.
  intros. unfold ape_remove, fold_keys. cbn [at_items]. rewrite !in_map_iff. split.
  - intros (i & <- & I). apply filter_In in I as [I K]. split. eauto. intro E. apply key_is_iff in E. rewrite E in K. discriminate.
  - intros ((i & <- & I) & Ne). exists i. split; auto. apply filter_In. split; auto. destruct (key_is k i) eqn:E; auto. apply key_is_iff in E. congruence.
Qed.
Lemma remove_nodup : forall k t, NoDup (fold_keys (at_items t)) -> NoDup (fold_keys (at_items (ape_remove k t))).
Proof. intros. apply nodup_filter. auto. Qed.
Lemma nodup_snoc : forall A (l : list A) x, NoDup l -> ~ In x l -> NoDup (l ++ [x]).
Proof.
  intros. apply NoDup_Add with (a := x) (l := l). { rewrite <- (app_nil_r l) at 1. apply Add_app. } auto.
Qed.
Lemma insert_nodup : forall i t, NoDup (fold_keys (at_items t)) -> NoDup (fold_keys (at_items (ape_insert i t))).
Proof.
  intros. unfold ape_insert. cbn [at_items]. rewrite fold_keys_app. cbn. apply nodup_snoc. now apply remove_nodup.
  intro I. apply (remove_keys (ai_key i) t) in I. tauto.
Qed.
Lemma combine_key : forall a b, lower (ai_key a) = lower (ai_key b) -> lower (ai_key (ape_combine a b)) = lower (ai_key a).
Proof. intros. unfold ape_combine. destruct (ai_value a), (ai_value b); cbn; auto. Qed.
Lemma push_keys_in : forall i l, In (lower (ai_key i)) (fold_keys l) -> fold_keys (push_into i l) = fold_keys l.
Proof.
  induction l as [|j l IH]; intros I; [contradiction|]. cbn [push_into]. destruct (key_is (ai_key i) j) eqn:E.
  - cbn. f_equal. apply combine_key. now apply key_is_iff.
  - cbn. f_equal. apply IH. destruct I as [I|I]; auto. cbn in I. apply key_is_iff in I. congruence.
Qed.
Lemma push_new : forall i l, ~ In (lower (ai_key i)) (fold_keys l) -> push_into i l = l ++ [i].
Proof.
  induction l as [|j l IH]; intros I; auto. cbn [push_into]. destruct (key_is (ai_key i) j) eqn:E.
  - destruct I. left. now apply key_is_iff.
  - cbn. f_equal. apply IH. intro. apply I. now right.
Qed.
Lemma in_fold_dec : forall x l, {In x (fold_keys l)} + {~ In x (fold_keys l)}.
Proof. intros. apply in_dec. apply list_eq_dec. apply N.eq_dec. Qed.
Lemma push_nodup : forall i t, NoDup (fold_keys (at_items t)) -> NoDup (fold_keys (at_items (ape_push i t))).
Proof.
  intros. unfold ape_push. cbn [at_items]. destruct (in_fold_dec (lower (ai_key i)) (at_items t)).
  - rewrite push_keys_in; auto.
  - rewrite push_new by auto. rewrite fold_keys_app. cbn. now apply nodup_snoc.
Qed.
Lemma pair_nodup : forall k a b t, NoDup (fold_keys (at_items t)) -> NoDup (fold_keys (at_items (insert_number_pair k a b t))).
Proof. intros. unfold insert_number_pair. destruct (format_number_pair _ _); auto. now apply insert_nodup. Qed.
Lemma remove_total_nodup : forall k t, NoDup (fold_keys (at_items t)) -> NoDup (fold_keys (at_items (remove_pair_total k t))).
Proof. intros. unfold remove_pair_total. destruct (pair_number k t). apply insert_nodup. now apply remove_nodup. now apply remove_nodup. Qed.
Lemma insert_item_nodup : forall i t, NoDup (fold_keys (at_items t)) -> NoDup (fold_keys (at_items (ape_insert_item t i))).
Proof.
  intros. unfold ape_insert_item.
  assert (P : NoDup (fold_keys (at_items (match map_key Ape (it_key i) with None => t
         | Some key => match ape_item_new key (it_value i) with Ok a => ape_push a t | _ => t end end)))).
  { destruct (map_key Ape (it_key i)); auto. destruct (ape_item_new _ _); auto. now apply push_nodup. }
  assert (Q : forall f, (forall n, NoDup (fold_keys (at_items (f n t)))) -> NoDup (fold_keys (at_items (match item_number i with Some n => f n t | None => t end)))).
  { intros. destruct (item_number i); auto. }
  destruct (it_key i); auto; try (apply Q; intro; apply pair_nodup; auto).
  destruct (value_text _); auto. destruct (flag_item _); auto. now apply insert_nodup.
Qed.
Lemma insert_picture_nodup : forall p t, NoDup (fold_keys (at_items t)) -> NoDup (fold_keys (at_items (ape_insert_picture t p))).
Proof. intros. unfold ape_insert_picture. destruct (pic_as_ape_key _); auto. destruct (ape_item_new _ _); auto. now apply insert_nodup. Qed.
Lemma fold_nodup : forall A (f : ape_tag -> A -> ape_tag), (forall x t, NoDup (fold_keys (at_items t)) -> NoDup (fold_keys (at_items (f t x)))) ->
  forall l t, NoDup (fold_keys (at_items t)) -> NoDup (fold_keys (at_items (fold_left f l t))).
Proof. intros A f H. induction l; intros; cbn; auto. Qed.
Lemma read_items_nodup : forall fuel count remaining cover t r t' r', NoDup (fold_keys (at_items t)) ->
  read_items fuel count remaining cover t r = Ok (t', r') -> NoDup (fold_keys (at_items t')).
Proof.
  induction fuel; intros; cbn [read_items] in *; [discriminate|].
  destruct (count =? 0). { inv H0. auto. } destruct (remaining <? 11). { inv H0. auto. }
  destruct (rd_le4 r) as [[size r1]| |]; try discriminate. cbn [bind] in H0.
  destruct (remaining <? size); [discriminate|].
  destruct (rd_le4 r1) as [[flags r2]| |]; try discriminate. cbn [bind] in H0.
  destruct (rd_key r2) as [[kb r3]| |]; try discriminate. cbn [bind] in H0.
  destruct (dec_text kb) as [key| |]; try discriminate. cbn [bind] in H0.
  destruct (existsb (list_eqb key) APE_PICTURE_TYPES && negb cover). { eapply IHfuel; eauto. }
  destruct (parse_item key flags size r3) as [[i r4]| |]; try discriminate. cbn [bind] in H0.
  eapply IHfuel; [|eauto]. now apply insert_nodup.
Qed.

(** ** Looking up *)
Lemma find_app' : forall A (f : A -> bool) a b, find f (a ++ b) = match find f a with Some x => Some x | None => find f b end.
Proof. induction a; intros; cbn; auto. destruct (f a); auto. Qed.
Lemma get_none : forall t k, ape_get t k = None <-> ~ In (lower k) (fold_keys (at_items t)).
Proof.
  intros. unfold ape_get. split.
  - intros F I. apply in_map_iff in I as (i & E & I). pose proof (find_none _ _ F _ I) as X. cbn in X. apply key_is_iff in E. congruence.
  - intros I. destruct (find _ _) eqn:F; auto. apply find_some in F as [A B]. destruct I. apply key_is_iff in B. rewrite <- B. now apply (in_map (fun i => lower (ai_key i))).
Qed.
Lemma get_remove_same : forall t k, ape_get (ape_remove k t) k = None.
Proof. intros. apply get_none. intro I. apply remove_keys in I. tauto. Qed.
Lemma find_filter_other : forall l k k', lower k <> lower k' -> find (key_is k) (filter (fun i => negb (key_is k' i)) l) = find (key_is k) l.
Proof.
  induction l as [|i l IH]; intros; auto. cbn [filter find].
  destruct (key_is k' i) eqn:E1; cbn [negb].
  - destruct (key_is k i) eqn:E2; auto. apply key_is_iff in E1, E2. congruence.
  - cbn [find]. destruct (key_is k i); auto.
Qed.
Lemma get_remove_other : forall t k k', lower k <> lower k' -> ape_get (ape_remove k' t) k = ape_get t k.
Proof. intros. unfold ape_get, ape_remove. cbn [at_items]. now apply find_filter_other. Qed.
Lemma get_insert_same : forall t i k, lower (ai_key i) = lower k -> ape_get (ape_insert i t) k = Some i.
Proof.
  intros. unfold ape_insert, ape_get. cbn [at_items]. rewrite find_app'.
  pose proof (get_remove_same t (ai_key i)) as G. rewrite get_none in G. rewrite H in G. apply get_none in G. unfold ape_get in G. rewrite G.
  cbn. apply key_is_iff in H. now rewrite H.
Qed.
Lemma get_insert_other : forall t i k, lower (ai_key i) <> lower k -> ape_get (ape_insert i t) k = ape_get t k.
Proof.
  intros. rewrite <- (get_remove_other t k (ai_key i)) by congruence. unfold ape_insert, ape_get. cbn [at_items]. rewrite find_app'.
  destruct (find _ _); auto. cbn. destruct (key_is k i) eqn:E; auto. apply key_is_iff in E. congruence.
Qed.

(** ** Values joined with NULs *)
Fixpoint joined (sep : N) (l : list str) : str :=
  match l with [] => [] | [s] => s | s :: l' => s ++ [sep] ++ joined sep l' end.
Lemma split_all_no : forall sep s, ~ In sep s -> split_all sep s = [s].
Proof. induction s as [|c s IH]; intros; auto. cbn. destruct (N.eqb_spec c sep). destruct H; now left. rewrite IH; auto. intro; apply H; now right. Qed.
Lemma split_all_app : forall sep a b, ~ In sep a -> split_all sep (a ++ sep :: b) = a :: split_all sep b.
Proof.
  induction a as [|c a IH]; intros. cbn. now rewrite N.eqb_refl. cbn. destruct (N.eqb_spec c sep). destruct H; now left.
  rewrite IH; auto. intro; apply H; now right.
Qed.
Lemma split_joined : forall sep l, l <> [] -> Forall (fun s => ~ In sep s) l -> split_all sep (joined sep l) = l.
Proof.
  induction l as [|s l IH]; intros N F; [congruence|]. inv F. destruct l as [|s' l]. cbn. now apply split_all_no.
  change (joined sep (s :: s' :: l)) with (s ++ sep :: joined sep (s' :: l)). rewrite split_all_app by auto. rewrite IH; auto. congruence.
Qed.
Lemma joined_snoc : forall sep l s, l <> [] -> joined sep (l ++ [s]) = joined sep l ++ [sep] ++ s.
Proof.
  induction l as [|a l IH]; intros; [congruence|]. destruct l as [|b l]. reflexivity.
  change (joined sep ((a :: b :: l) ++ [s])) with (a ++ [sep] ++ joined sep ((b :: l) ++ [s])). rewrite IH by congruence.
  change (joined sep (a :: b :: l)) with (a ++ [sep] ++ joined sep (b :: l)). now rewrite <- !app_assoc.
Qed.
Lemma split_all_ne : forall sep s, split_all sep s <> [].
Proof. induction s as [|c s IH]; cbn. congruence. destruct (c =? sep); [congruence|]. destruct (split_all sep s); congruence. Qed.
Lemma joined_split : forall sep s, joined sep (split_all sep s) = s.
Proof.
  induction s as [|c s IH]; auto. cbn [split_all]. destruct (N.eqb_spec c sep) as [->|].
  - pose proof (split_all_ne sep s). destruct (split_all sep s) eqn:E; [congruence|]. change (joined sep ([] :: l :: l0)) with (sep :: joined sep (l :: l0)). now rewrite IH.
  - pose proof (split_all_ne sep s). destruct (split_all sep s) as [|w ws] eqn:E; [congruence|].
    destruct ws. cbn in *. now rewrite IH. change (joined sep ((c :: w) :: l :: ws)) with (c :: joined sep (w :: l :: ws)). now rewrite IH.
Qed.
