(** Property theorems for the conversions between APE tags and [Tag] (C73, C74). *)
From Verif Require Import BaseLemmas StrLemmas TextProof PictureProof PictureThm ItemKeyThm TagThm ApeModel ApeProof ApeProof2 ApeThm ApeThm2.
From Verif Require Import TagModel.

(** Keys that are stored as one text per key: not the pairs, the movement and the flag. *)
Definition special : list item_key := [KTrackNumber; KTrackTotal; KDiscNumber; KDiscTotal; KMovementNumber; KMovementTotal; KFlagCompilation].
Definition plain (k : item_key) (s : str) : Prop := map_key Ape k = Some s /\ from_key Ape s = Some k /\ ~ In k special.
Lemma table_key_ok : forall k s, map_key Ape k = Some s -> key_ok s.
Proof.
  intros k s H. assert (A : forallb (fun k => match map_key Ape k with Some s => match ape_item_new s (VText []) with Ok _ => true | _ => false end | None => true end) all_keys = true) by (vm_compute; reflexivity).
  pose proof (for_keys _ A k) as B. cbv beta in B. rewrite H in B. unfold key_ok. destruct (ape_item_new s (VText [])); try discriminate. eauto.
Qed.
Lemma insert_item_plain : forall t i s, ~ In (it_key i) special -> map_key Ape (it_key i) = Some s -> ape_insert_item t i = ape_push (mkApe false s (it_value i)) t.
Proof.
  intros t i s NS M. pose proof (new_ok s (it_value i) (table_key_ok _ _ M)) as E. unfold ape_insert_item.
  destruct (it_key i); cbn iota; rewrite ?M, ?E; try reflexivity; destruct NS; unfold special; cbn [In]; tauto.
Qed.
Lemma from_key_lower : forall s s', lower s = lower s' -> from_key Ape s = from_key Ape s'.
Proof. intros. symmetry. apply (C24_order_and_case Ape s s' (instance (table Ape))); auto. Qed.

(** ** C73, split and merge: items without a known key stay, in front; the others come back with their values.
    Not covered: pairs, movement and flag; keys in another spelling than the table's; read-only items. *)
Definition known (i : ape_item) : bool := match from_key Ape (ai_key i) with Some _ => true | None => false end.
Definition convertible (i : ape_item) : Prop :=
  match from_key Ape (ai_key i) with None => True | Some k => plain k (ai_key i) /\ ai_ro i = false end.
Lemma existsb_zero : forall s, existsb (N.eqb 0) s = true <-> In 0 s.
Proof. intros. rewrite existsb_exists. split. intros (x & X & E). apply N.eqb_eq in E. now subst. intro. exists 0. auto. Qed.
Lemma split_item_text : forall i k s, from_key Ape (ai_key i) = Some k -> ~ In k special -> ai_value i = VText s ->
  split_ape_item i = Some (map (fun v => new_item k (VText v)) (split_all 0 s)).
Proof.
  intros i k s F NS V. unfold split_ape_item. rewrite F, V.
  assert (X : (if existsb (N.eqb 0) s then map (fun v => new_item k (VText v)) (split_all 0 s) else [new_item k (VText s)]) = map (fun v => new_item k (VText v)) (split_all 0 s)).
  { destruct (existsb (N.eqb 0) s) eqn:E; auto. rewrite split_all_no; auto. intro I. apply existsb_zero in I. congruence. }
  f_equal. destruct k; auto; destruct NS; unfold special; cbn [In]; tauto.
Qed.
Lemma split_item_other : forall i k, from_key Ape (ai_key i) = Some k -> ~ In k special -> (forall s, ai_value i <> VText s) ->
  split_ape_item i = Some [new_item k (ai_value i)].
Proof.
  intros i k F NS V. unfold split_ape_item. rewrite F. f_equal.
  destruct (ai_value i) as [s|s|b]; [destruct (V s); auto| |]; destruct k; auto; destruct NS; unfold special; cbn [In]; tauto.
Qed.
Lemma split_none : forall i, from_key Ape (ai_key i) = None -> split_ape_item i = None.
Proof. intros. unfold split_ape_item. now rewrite H. Qed.
Lemma fold_insert_texts : forall k s, plain k s -> forall vs t, fold_left ape_insert_item (map (fun v => new_item k (VText v)) vs) t = fold_left (fun t v => ape_push (ape_text s v) t) vs t.
Proof.
  intros k s (M & F & NS). induction vs as [|v vs IH]; intros; auto. cbn [map fold_left]. rewrite (insert_item_plain t (new_item k (VText v)) s) by auto. apply IH.
Qed.
Lemma split_rest : forall l, fst (split_ape_items l) = filter (fun i => negb (known i)) l \/ ~ Forall (fun i => split_ape_item i = None <-> known i = false) l.
Proof.
  induction l as [|i l IH]. now left. destruct IH as [IH|IH]. 2:{ right. intro F. inv F. auto. }
  cbn [split_ape_items filter]. destruct (split_ape_items l) as [r ts]. cbn [fst] in IH. destruct (split_ape_item i) eqn:E.
  - destruct (known i) eqn:K. left. exact IH. right. intro F. inv F. apply H1 in K. congruence.
  - destruct (known i) eqn:K. right. intro F. inv F. apply H1 in E. congruence. left. cbn [fst negb]. now f_equal.
Qed.
Lemma split_known : forall i, split_ape_item i = None <-> known i = false.
Proof. intros. unfold split_ape_item, known. destruct (from_key Ape (ai_key i)); split; congruence. Qed.
Lemma merge_back : forall l t, Forall convertible l -> NoDup (fold_keys (at_items t ++ filter known l)) ->
  at_items (fold_left ape_insert_item (snd (split_ape_items l)) t) = at_items t ++ filter known l /\
  at_ro (fold_left ape_insert_item (snd (split_ape_items l)) t) = at_ro t.
Proof.
  induction l as [|i l IH]; intros t F ND. { cbn. rewrite app_nil_r. auto. }
  inv F. cbn [split_ape_items filter] in *. destruct (split_ape_items l) as [r ts] eqn:S. cbn [snd] in IH.
  unfold convertible in H1. destruct (from_key Ape (ai_key i)) as [k|] eqn:FK.
  2:{ assert (KN : known i = false) by (unfold known; now rewrite FK). rewrite KN in *. rewrite split_none by auto. cbn [snd]. apply IH; auto. }
  assert (KN : known i = true) by (unfold known; now rewrite FK). rewrite KN in *. destruct H1 as ((M & FF & NS) & RO).
  assert (FR : ~ In (lower (ai_key i)) (fold_keys (at_items t))).
  { intro I. rewrite fold_keys_app in ND. cbn [fold_keys map] in ND. apply NoDup_remove in ND as [_ ND]. apply ND. apply in_or_app. now left. }
  assert (ND2 : NoDup (fold_keys ((at_items t ++ [i]) ++ filter known l))) by now rewrite <- app_assoc.
  destruct (ai_value i) as [s|s|b] eqn:V.
  - rewrite (split_item_text i k s) by auto. cbn [snd]. rewrite fold_left_app, (fold_insert_texts k (ai_key i)) by now repeat split.
    pose proof (split_all_ne 0 s). destruct (split_all 0 s) as [|v vs] eqn:E; [congruence|]. rewrite pushes by auto. rewrite <- E, joined_split.
    assert (EI : ape_text (ai_key i) s = i) by (destruct i; cbn in *; subst; reflexivity). rewrite EI.
    destruct (IH (mkApeTag (at_ro t) (at_items t ++ [i]))) as [A B]; auto. cbn [at_items at_ro] in *. rewrite A, B. rewrite <- app_assoc. auto.
  - rewrite (split_item_other i k) by (auto; rewrite V; discriminate). cbn [snd app fold_left]. rewrite (insert_item_plain _ _ (ai_key i)) by auto. cbn [new_item it_value].
    assert (EI : mkApe false (ai_key i) (ai_value i) = i) by (destruct i; cbn in *; subst; reflexivity). rewrite EI. unfold ape_push. rewrite push_new by auto.
    destruct (IH (mkApeTag (at_ro t) (at_items t ++ [i]))) as [A B]; auto. cbn [at_items at_ro] in *. rewrite A, B. rewrite <- app_assoc. auto.
  - rewrite (split_item_other i k) by (auto; rewrite V; discriminate). cbn [snd app fold_left]. rewrite (insert_item_plain _ _ (ai_key i)) by auto. cbn [new_item it_value].
    assert (EI : mkApe false (ai_key i) (ai_value i) = i) by (destruct i; cbn in *; subst; reflexivity). rewrite EI. unfold ape_push. rewrite push_new by auto.
    destruct (IH (mkApeTag (at_ro t) (at_items t ++ [i]))) as [A B]; auto. cbn [at_items at_ro] in *. rewrite A, B. rewrite <- app_assoc. auto.
Qed.
Lemma nodup_split : forall l, NoDup (fold_keys l) -> NoDup (fold_keys (filter (fun i => negb (known i)) l ++ filter known l)).
Proof.
  induction l as [|i l IH]; intros ND; auto. inv ND. cbn [filter]. specialize (IH H2).
  assert (NI : ~ In (lower (ai_key i)) (fold_keys (filter (fun i => negb (known i)) l ++ filter known l))).
  { intro I. apply H1. rewrite fold_keys_app in I. apply in_app_or in I as [I|I]; eapply fold_keys_filter; exact I. }
  destruct (known i); cbn [negb app].
  - rewrite fold_keys_app in *. cbn [fold_keys map]. apply NoDup_Add with (a := lower (ai_key i)) (l := fold_keys (filter (fun i => negb (known i)) l) ++ fold_keys (filter known l)). apply Add_app. auto.
  - cbn [fold_keys map]. constructor; auto.
Qed.
Theorem C73_split_merge_partial : forall (t : ape_tag), NoDup (map (fun i => lower (ai_key i)) (at_items t)) -> Forall convertible (at_items t) ->
  let (rest, g) := @ape_split unit t in
  at_ro rest = at_ro t /\ at_items rest = filter (fun i => negb (known i)) (at_items t) /\
  ape_merge rest g = mkApeTag (at_ro t) (filter (fun i => negb (known i)) (at_items t) ++ filter known (at_items t)).
Proof.
  intros t ND F. unfold ape_split. destruct (split_ape_items (at_items t)) as [r ts] eqn:S.
  assert (R : r = filter (fun i => negb (known i)) (at_items t)).
  { destruct (split_rest (at_items t)) as [X|X]. rewrite S in X. exact X. destruct X. apply Forall_forall. intros. apply split_known. }
  cbn [at_ro at_items]. repeat split; auto. unfold ape_merge. cbn [t_pictures t_items fold_left].
  destruct (merge_back (at_items t) (mkApeTag (at_ro t) r) F) as [A B].
  { cbn [at_items]. rewrite R. now apply nodup_split. }
  rewrite S in A, B. cbn [snd at_items at_ro] in A, B. destruct (fold_left ape_insert_item ts (mkApeTag (at_ro t) r)). cbn in *. subst. reflexivity.
Qed.
Print Assumptions C73_split_merge_partial.

(** ** C73, from [Tag] and back: the texts of every plain key survive, in order, whatever else is in the tag. *)
Definition pushed_ok (k : item_key) (s : str) (j : str) : Prop := from_key Ape j = Some k -> lower j = lower s.
Lemma exceptions_ape : forall k k', In (Ape, k, k') exceptions -> (k = KYear /\ k' = KRecordingDate) \/ In k' special.
Proof.
  intros k k' I. unfold exceptions in I. cbn [In] in I.
  repeat match type of I with _ \/ _ => destruct I as [I|I] end; try contradiction; inversion I; subst; unfold special; cbn [In]; tauto.
Qed.
Lemma pic_key_unknown : forall p s, pic_as_ape_key p = Some s -> from_key Ape s = None.
Proof. intros p s H. destruct p; cbn in H; try discriminate; inv H; vm_compute; reflexivity. Qed.
Lemma get_push_other : forall t i s, lower (ai_key i) <> lower s -> ape_get (ape_push i t) s = ape_get t s.
Proof.
  intros t i s N. unfold ape_get, ape_push. cbn [at_items]. induction (at_items t) as [|j l IH]; cbn [push_into find].
  - destruct (key_is s i) eqn:E; auto. apply key_is_iff in E. congruence.
  - destruct (key_is (ai_key i) j) eqn:E; cbn [find].
    + apply key_is_iff in E. assert (X : key_is s (ape_combine j i) = false). { destruct (key_is s (ape_combine j i)) eqn:Y; auto. apply key_is_iff in Y. rewrite combine_key in Y by auto. congruence. }
      assert (Y : key_is s j = false). { destruct (key_is s j) eqn:Y; auto. apply key_is_iff in Y. congruence. } now rewrite X, Y.
    + now rewrite IH.
Qed.
Lemma get_push_same : forall t i s, lower (ai_key i) = lower s -> ape_get (ape_push i t) s = Some (match ape_get t s with Some j => ape_combine j i | None => i end).
Proof.
  intros t i s N. unfold ape_get, ape_push. cbn [at_items]. induction (at_items t) as [|j l IH]; cbn [push_into find].
  - apply key_is_iff in N. now rewrite N.
  - destruct (key_is (ai_key i) j) eqn:E; cbn [find].
    + apply key_is_iff in E. assert (Y : key_is s j = true) by (apply key_is_iff; congruence). rewrite Y.
      assert (X : key_is s (ape_combine j i) = true) by (apply key_is_iff; rewrite combine_key; congruence). now rewrite X.
    + assert (Y : key_is s j = false). { destruct (key_is s j) eqn:Y; auto. apply key_is_iff in Y. assert (key_is (ai_key i) j = true) by (apply key_is_iff; congruence). congruence. }
      rewrite Y. apply IH.
Qed.
Lemma forall_remove : forall (Q : str -> Prop) k t, Forall (fun i => Q (ai_key i)) (at_items t) -> Forall (fun i => Q (ai_key i)) (at_items (ape_remove k t)).
Proof. intros. unfold ape_remove. cbn [at_items]. apply Forall_forall. intros x X. apply filter_In in X as [X _]. rewrite Forall_forall in H. now apply H. Qed.
Lemma forall_insert : forall (Q : str -> Prop) i t, Forall (fun i => Q (ai_key i)) (at_items t) -> Q (ai_key i) -> Forall (fun i => Q (ai_key i)) (at_items (ape_insert i t)).
Proof. intros. unfold ape_insert. cbn [at_items]. apply Forall_app. split. apply (forall_remove Q (ai_key i) t H). constructor; auto. Qed.
Lemma forall_push : forall (Q : str -> Prop) i t, Forall (fun i => Q (ai_key i)) (at_items t) -> Q (ai_key i) -> Forall (fun i => Q (ai_key i)) (at_items (ape_push i t)).
Proof.
  intros. unfold ape_push. cbn [at_items]. induction (at_items t) as [|j l IH]; cbn [push_into]. auto. inv H. destruct (key_is _ j); constructor; auto.
  unfold ape_combine. destruct (ai_value j), (ai_value i); cbn; auto.
Qed.

Section Key.
Context (k : item_key) (s : str).
Definition state (t : ape_tag) (vs : list str) : Prop :=
  NoDup (fold_keys (at_items t)) /\ Forall (fun i => pushed_ok k s (ai_key i)) (at_items t) /\
  ape_get t s = match vs with [] => None | _ => Some (mkApe false s (VText (joined 0 vs))) end.
Lemma other_key : plain k s -> forall j k', from_key Ape j = k' -> k' <> Some k -> lower j <> lower s.
Proof. intros (_ & F & _) j k' E N X. apply from_key_lower in X. congruence. Qed.
Lemma keep_insert : plain k s -> forall t vs i, state t vs -> from_key Ape (ai_key i) <> Some k -> state (ape_insert i t) vs.
Proof.
  intros P t vs i (ND & Q & G) N. repeat split. now apply insert_nodup. apply forall_insert; auto. intro X; congruence.
  rewrite get_insert_other; auto. eapply other_key; eauto.
Qed.
Lemma keep_item : plain k s -> forall t vs i, state t vs -> it_key i <> k -> (k = KRecordingDate -> it_key i <> KYear) -> state (ape_insert_item t i) vs.
Proof.
  intros P t vs i St N NY. assert (NS : ~ In k special) by apply P.
  assert (SP : forall k', In k' special -> Some k' <> Some k) by (intros k' I X; inversion X; subst; auto).
  assert (T : from_key Ape TRACK <> Some k) by (change (from_key Ape TRACK) with (Some KTrackTotal); apply SP; unfold special; cbn [In]; tauto).
  assert (D : from_key Ape DISC <> Some k) by (change (from_key Ape DISC) with (Some KDiscTotal); apply SP; unfold special; cbn [In]; tauto).
  assert (Cp : from_key Ape ($"Compilation") <> Some k) by (change (from_key Ape ($"Compilation")) with (Some KFlagCompilation); apply SP; unfold special; cbn [In]; tauto).
  assert (PR : forall key a b, from_key Ape key <> Some k -> state (insert_number_pair key a b t) vs).
  { intros. unfold insert_number_pair. destruct (format_number_pair _ _); auto. now apply keep_insert. }
  assert (G : state (match map_key Ape (it_key i) with None => t | Some key => match ape_item_new key (it_value i) with Ok a => ape_push a t | _ => t end end) vs).
  { destruct (map_key Ape (it_key i)) as [s2|] eqn:M; auto. rewrite new_ok by (eapply table_key_ok; eauto).
    assert (X : from_key Ape s2 <> Some k).
    { destruct (C23_tables _ _ _ M) as (k' & F & M' & E). rewrite F. intro X. inversion X; subst k'. destruct E as [E|E]; [congruence|].
      apply exceptions_ape in E as [[E1 E2]|E]; auto. apply (NY E2 E1). }
    destruct St as (ND & Q & Gt). repeat split. now apply push_nodup. apply forall_push; auto. intro; contradiction.
    rewrite get_push_other; auto. cbn [ai_key]. eapply other_key; eauto. }
  unfold ape_insert_item. cbv zeta.
  destruct (it_key i); cbn iota; auto; try (destruct (item_number i); auto; apply PR; auto).
  destruct (value_text _); auto. destruct (flag_item _); auto. now apply keep_insert.
Qed.
Lemma keep_picture : plain k s -> forall t vs p, state t vs -> state (ape_insert_picture t p) vs.
Proof.
  intros P t vs p St. unfold ape_insert_picture. destruct (pic_as_ape_key (p_type p)) as [key|] eqn:E; auto.
  destruct (ape_item_new key _) as [i| |] eqn:N; auto. apply new_key_ok in N as [_ ->]. apply keep_insert; auto. cbn [ai_key]. rewrite (pic_key_unknown _ _ E). discriminate.
Qed.
Lemma add_item : plain k s -> forall t vs i v, state t vs -> it_key i = k -> it_value i = VText v -> state (ape_insert_item t i) (vs ++ [v]).
Proof.
  intros (M & F & NS) t vs i v (ND & Q & G) K V. rewrite (insert_item_plain t i s) by (rewrite K; auto). rewrite V. repeat split.
  - now apply push_nodup.
  - apply forall_push; auto. cbn [ai_key]. intro. auto.
  - rewrite get_push_same by reflexivity. rewrite G. destruct vs as [|w vs]. reflexivity.
    cbn [ape_combine ai_value]. destruct ((w :: vs) ++ [v]) eqn:E; [destruct vs; discriminate|]. rewrite <- E. rewrite joined_snoc by congruence. reflexivity.
Qed.
Lemma all_items : plain k s -> forall l t vs, state t vs -> (forall i, In i l -> it_key i = k -> exists v, it_value i = VText v) ->
  (k = KRecordingDate -> forall i, In i l -> it_key i <> KYear) ->
  state (fold_left ape_insert_item l t) (vs ++ TagModel.filter_map (fun i => if ik_eqb (it_key i) k then value_text (it_value i) else None) l).
Proof.
  intros P. induction l as [|i l IH]; intros t vs St T Y. { cbn. now rewrite app_nil_r. }
  cbn [fold_left TagModel.filter_map]. destruct (ik_eqb (it_key i) k) eqn:E.
  - apply ik_eqb_eq in E. destruct (T i (or_introl eq_refl) E) as (v & V). rewrite V. cbn [value_text].
    match goal with |- state _ (vs ++ v :: ?x) => replace (vs ++ v :: x) with ((vs ++ [v]) ++ x) by now rewrite <- app_assoc end. apply IH. eapply add_item; eauto.
    intros; eapply T; eauto; now right. intros. apply Y; auto. now right.
  - apply IH. apply keep_item; auto. intro X. apply ik_eqb_eq in X. congruence. intro X. apply Y; auto. now left.
    intros; eapply T; eauto; now right. intros. apply Y; auto. now right.
Qed.
End Key.

Lemma filter_map_app : forall A B (f : A -> option B) a b, TagModel.filter_map f (a ++ b) = TagModel.filter_map f a ++ TagModel.filter_map f b.
Proof. induction a; intros; cbn [TagModel.filter_map app]; auto. destruct (f a); rewrite IHa; auto. Qed.
Definition pick (k : item_key) (i : tag_item) : option str := if ik_eqb (it_key i) k then value_text (it_value i) else None.
Lemma pick_none : forall k l, (forall i, In i l -> it_key i <> k) -> TagModel.filter_map (pick k) l = [].
Proof.
  induction l as [|i l IH]; intros; auto. cbn [TagModel.filter_map]. unfold pick at 1. destruct (ik_eqb (it_key i) k) eqn:E.
  apply ik_eqb_eq in E. destruct (H i (or_introl eq_refl) E). apply IH. intros; apply H; now right.
Qed.
Lemma pick_texts : forall k vs, TagModel.filter_map (pick k) (map (fun v => new_item k (VText v)) vs) = vs.
Proof. induction vs; auto. cbn [map TagModel.filter_map]. unfold pick at 1. cbn [new_item it_key it_value value_text]. rewrite ik_eqb_refl. now f_equal. Qed.
Lemma split_pair_keys : forall c a b k i, In i (split_pair c a b) -> a <> k -> b <> k -> it_key i <> k.
Proof.
  intros c a b k i I A B. unfold split_pair in I. destruct (split_once 47 c) as [[x y]|]; cbn [In] in I.
  destruct I as [<-|[<-|[]]]; auto. destruct I as [<-|[]]; auto.
Qed.
Lemma split_item_keys : forall k i x ts, ~ In k special -> split_ape_item i = Some ts -> In x ts -> it_key x = k -> from_key Ape (ai_key i) = Some k.
Proof.
  intros k i x ts NS S I K. unfold split_ape_item in S. destruct (from_key Ape (ai_key i)) as [k'|]; [|discriminate]. inversion S; subst ts; clear S.
  assert (X : forall a, In a special -> a <> k) by (intros a A E; subst a; auto).
  assert (D : (exists s a b, ai_value i = VText s /\ In x (split_pair s a b) /\ In a special /\ In b special) \/ it_key x = k').
  { destruct (ai_value i) as [s|s|b].
    - assert (Y : In x (if existsb (N.eqb 0) s then map (fun v => new_item k' (VText v)) (split_all 0 s) else [new_item k' (VText s)]) -> it_key x = k').
      { destruct (existsb _ s); intro J. apply in_map_iff in J as (v & <- & _). reflexivity. destruct J as [<-|[]]. reflexivity. }
      destruct k'; try (right; apply Y; exact I); left; do 3 eexists; split; try reflexivity; split; try exact I; unfold special; cbn [In]; tauto.
    - right. destruct k'; destruct I as [<-|[]]; reflexivity.
    - right. destruct k'; destruct I as [<-|[]]; reflexivity. }
  destruct D as [(s & a & b & _ & J & A & B)|D]. 2: congruence.
  exfalso. eapply split_pair_keys; eauto.
Qed.
Theorem C73_texts_partial : forall (t : tag unit) k s, plain k s ->
  (forall i, In i (t_items t) -> it_key i = k -> exists v, it_value i = VText v /\ ~ In 0 v) ->
  (k = KRecordingDate -> forall i, In i (t_items t) -> it_key i <> KYear) ->
  get_strings (@tag_of_ape unit (ape_of_tag t)) k = get_strings t k.
Proof.
  intros t k s P T Y.
  assert (St : state k s (ape_of_tag t) (get_strings t k)).
  { unfold ape_of_tag, ape_merge. assert (S0 : state k s ape_default []) by (repeat split; constructor).
    pose proof (all_items k s P (t_items t) ape_default [] S0) as A. cbn [app] in A. specialize (A ltac:(intros i I K; destruct (T i I K) as (v & V & _); eauto) Y).
    change (TagModel.filter_map _ (t_items t)) with (get_strings t k) in A. revert A. generalize (fold_left ape_insert_item (t_items t) ape_default). generalize (get_strings t k).
    induction (t_pictures t) as [|p ps IH]; intros vs a A; auto. cbn [fold_left]. apply IH. now apply keep_picture. }
  assert (NZ : Forall (fun v => ~ In 0 v) (get_strings t k)).
  { apply Forall_forall. intros v V. unfold get_strings in V. apply in_filter_map in V as (i & I & E). destruct (ik_eqb (it_key i) k) eqn:K; [|discriminate]. apply ik_eqb_eq in K.
    destruct (T i I K) as (w & W & Z). rewrite W in E. cbn in E. now inv E. }
  destruct P as (M & F & NS). destruct St as (ND & Q & G). unfold get_strings at 1, tag_of_ape, ape_split.
  destruct (split_ape_items (at_items (ape_of_tag t))) as [r ts] eqn:S. cbn [snd t_items]. change (TagModel.filter_map (pick k) ts = get_strings t k).
  replace ts with (snd (split_ape_items (at_items (ape_of_tag t)))) by now rewrite S. clear S r ts. unfold ape_get in G. revert ND Q G.
  generalize (at_items (ape_of_tag t)) as l. generalize dependent (get_strings t k). intros vs NZ l.
  assert (NK : forall l, ~ In (lower s) (fold_keys l) -> Forall (fun i => pushed_ok k s (ai_key i)) l -> TagModel.filter_map (pick k) (snd (split_ape_items l)) = []).
  { induction l0 as [|i l0 IH]; intros NI Q; auto. inv Q. cbn [split_ape_items]. destruct (split_ape_items l0) as [r ts]. cbn [snd] in IH.
    assert (I0 : TagModel.filter_map (pick k) ts = []) by (apply IH; auto; intro; apply NI; now right).
    destruct (split_ape_item i) as [x|] eqn:E; cbn [snd]; auto. rewrite filter_map_app, I0, app_nil_r. apply pick_none. intros j J K.
    apply NI. left. symmetry. symmetry. apply H1. eapply split_item_keys; eauto. }
  induction l as [|i l IH]; intros ND Q G.
  - cbn in G. destruct vs; [reflexivity|discriminate].
  - inv ND. inv Q. cbn [find] in G. cbn [split_ape_items]. destruct (split_ape_items l) as [r ts] eqn:S. cbn [snd] in IH. destruct (key_is s i) eqn:E.
    + destruct vs as [|v vs]; [discriminate|]. assert (Gi : i = mkApe false s (VText (joined 0 (v :: vs)))) by congruence. clear G. subst i. rewrite (split_item_text (mkApe false s (VText (joined 0 (v :: vs)))) k (joined 0 (v :: vs))) by auto.
      cbn [snd]. rewrite filter_map_app, pick_texts. rewrite split_joined by (congruence || auto).
      replace ts with (snd (split_ape_items l)) by now rewrite S. rewrite NK; auto. now rewrite app_nil_r.
    + destruct (split_ape_item i) as [x|] eqn:X; cbn [snd]; auto. rewrite filter_map_app. rewrite pick_none. cbn [app]. auto.
      intros j J K. pose proof (H3 (split_item_keys _ _ _ _ NS X J K)) as L. apply key_is_iff in L. congruence.
Qed.
Print Assumptions C73_texts_partial.
Definition tag_ex : tag unit := mkTag Ape [] [new_item KTrackTitle (VText ($"T")); new_item KTrackArtist (VText ($"A")); new_item KTrackNumber (VText ($"3"));
  new_item KTrackArtist (VText ($"B")); new_item KYear (VText ($"1999"))] None.
Example C73_ex : plain KTrackArtist ($"Artist") /\ get_strings (@tag_of_ape unit (ape_of_tag tag_ex)) KTrackArtist = [$"A"; $"B"] /\
  @ape_split unit (mkApeTag true [ape_text ($"Mood") ($"x"); ape_text ($"My key") ($"y"); ape_text ($"Title") [65; 0; 66]]) =
  (mkApeTag true [ape_text ($"My key") ($"y")], mkTag Ape [] [new_item KMood (VText ($"x")); new_item KTrackTitle (VText ($"A")); new_item KTrackTitle (VText ($"B"))] None).
Proof. split; [|vm_compute; auto]. split; [vm_compute; reflexivity|]. split; [vm_compute; reflexivity|]. unfold special. cbn [In]. intuition discriminate. Qed.
(** Pictures become binary items that are never turned into pictures again. *)
Theorem C73_pictures_refuted : ~ (forall (t : tag unit) p, In p (t_pictures t) -> pic_as_ape_key (p_type p) <> None -> In p (t_pictures (@tag_of_ape unit (ape_of_tag t)))).
Proof.
  intro H. pose (p := mkPic PCoverFront None None [1; 2; 3]). specialize (H (mkTag Ape [p] [] None) p (or_introl eq_refl) ltac:(discriminate)). vm_compute in H. exact H.
Qed.
Print Assumptions C73_pictures_refuted.
(** A year item comes back as a recording date, a read-only item loses the flag, a track that is not a number is dropped. *)
Theorem C73_fields_refuted :
  get_strings (@tag_of_ape unit (ape_of_tag tag_ex)) KYear = [] /\ get_strings tag_ex KYear = [$"1999"] /\
  (exists t : ape_tag, let (rest, g) := @ape_split unit t in at_items t = [mkApe true ($"Title") (VText ($"x"))] /\ at_items (ape_merge rest g) = [mkApe false ($"Title") (VText ($"x"))]) /\
  (exists t : ape_tag, let (rest, g) := @ape_split unit t in at_items t = [ape_text TRACK ($"A1")] /\ at_items (ape_merge rest g) = []).
Proof.
  split; [vm_compute; reflexivity|]. split; [vm_compute; reflexivity|]. split.
  - exists (mkApeTag false [mkApe true ($"Title") (VText ($"x"))]). vm_compute. auto.
  - exists (mkApeTag false [ape_text TRACK ($"A1")]). vm_compute. auto.
Qed.
Print Assumptions C73_fields_refuted.

(** ** C74: saving a [Tag] directly or converting it to [ApeTag] first. *)
Theorem C74_same_items_partial : forall (t : tag unit), t_pictures t = [] -> (forall i, In i (t_items t) -> ~ In (it_key i) special) ->
  NoDup (TagModel.filter_map (fun i => option_map lower (map_key Ape (it_key i))) (t_items t)) ->
  ape_ref_of_tag t = at_items (ape_of_tag t).
Proof.
  intros t NP NS ND. unfold ape_of_tag, ape_merge. rewrite NP. cbn [fold_left].
  assert (GN : forall k, In k special -> get_string t k = None).
  { intros k K. unfold get_string. destruct (get t k) as [i|] eqn:E; auto. exfalso. unfold get in E. apply find_some in E as [I E]. apply ik_eqb_eq in E. apply (NS i I). now rewrite E. }
  unfold ape_ref_of_tag. rewrite !GN by (unfold special; cbn [In]; tauto). cbn [format_number_pair option_map opt_list]. rewrite !app_nil_r. clear GN.
  assert (E : filter (fun i => negb (is_pair_key (it_key i))) (t_items t) = t_items t).
  { clear - NS. induction (t_items t) as [|i l IH]; auto. cbn [filter]. destruct (is_pair_key (it_key i)) eqn:P.
    - exfalso. apply (NS i (or_introl eq_refl)). unfold is_pair_key in P. apply existsb_exists in P as (k & K & P). apply ik_eqb_eq in P. rewrite P. unfold special. cbn [In] in *. tauto.
    - cbn [negb]. f_equal. apply IH. intros; apply NS; now right. }
  rewrite E. clear E NP.
  assert (GEN : forall l a, (forall i, In i l -> ~ In (it_key i) special) -> NoDup (fold_keys (at_items a) ++ TagModel.filter_map (fun i => option_map lower (map_key Ape (it_key i))) l) ->
    at_items (fold_left ape_insert_item l a) = at_items a ++ TagModel.filter_map (fun i => match map_key Ape (it_key i) with Some key => Some (mkApe false key (it_value i)) | None => None end) l).
  { induction l as [|i l IH]; intros a S N. cbn. now rewrite app_nil_r. cbn [fold_left TagModel.filter_map] in *. destruct (map_key Ape (it_key i)) as [s|] eqn:M; cbn [option_map] in N.
    - rewrite (insert_item_plain a i s); auto. 2: apply S; now left. unfold ape_push. rewrite push_new. 2:{ cbn [ai_key]. apply NoDup_remove in N as [_ N]. intro X. apply N. apply in_or_app. auto. }
      rewrite IH. cbn [at_items]. now rewrite <- app_assoc. intros; apply S; now right. cbn [at_items]. rewrite fold_keys_app. cbn [fold_keys map ai_key]. now rewrite <- app_assoc.
    - assert (X : ape_insert_item a i = a). { unfold ape_insert_item. assert (NSi := S i (or_introl eq_refl)). cbv zeta. destruct (it_key i); cbn iota; rewrite ?M; auto; destruct NSi; unfold special; cbn [In]; tauto. }
      rewrite X. apply IH; auto. intros; apply S; now right. }
  rewrite GEN; auto.
Qed.
Print Assumptions C74_same_items_partial.
(** Finding: a Tag with two artists saved directly gives two items with the same key; reading the file returns only the last.
    Converting first keeps both. *)
Theorem C74_multi_value_refuted : exists t : tag unit, t_pictures t = [] /\ get_strings t KTrackArtist = [$"A"; $"B"] /\
  map ai_key (ape_ref_of_tag t) = [$"Artist"; $"Artist"] /\
  (forall b, create_ape_tag false (ape_ref_of_tag t) = Ok b -> exists a h r, read_ape_tag b false true true (rd_at b 0) = Ok (Some a, h, r) /\ get_strings (@tag_of_ape unit a) KTrackArtist = [$"B"]) /\
  get_strings (@tag_of_ape unit (ape_of_tag t)) KTrackArtist = [$"A"; $"B"].
Proof.
  exists (mkTag Ape [] [new_item KTrackArtist (VText ($"A")); new_item KTrackArtist (VText ($"B"))] None). split; auto. split; [vm_compute; reflexivity|].
  split; [vm_compute; reflexivity|]. split; [|vm_compute; reflexivity]. intros b B. vm_compute in B. inversion B; subst b. clear B. do 3 eexists. split; vm_compute; reflexivity.
Qed.
Print Assumptions C74_multi_value_refuted.
(** Finding: pictures are not written when a Tag is saved directly as APE. *)
Theorem C74_pictures_refuted : exists t : tag unit, ape_ref_of_tag t = [] /\ at_items (ape_of_tag t) <> [].
Proof. exists (mkTag Ape [mkPic PCoverFront None None [1; 2; 3]] [] None). split. reflexivity. vm_compute. discriminate. Qed.
Print Assumptions C74_pictures_refuted.
Example C74_ex : let t : tag unit := mkTag Ape [] [new_item KTrackArtist (VText ($"A")); new_item KTrackTitle (VText ($"T"))] None in
  ape_ref_of_tag t = at_items (ape_of_tag t) /\ lenN (ape_ref_of_tag t) = 2.
Proof. vm_compute. auto. Qed.
