(** Lemmas about the conversions between Ilst and Tag. *)
From Coq Require Import Permutation.
From Verif Require Import BaseLemmas StrLemmas ItemKeyThm TagThm IlstModel IlstThm.

(** ** Specification *)
Definition opt_list {A} (o : option A) : list A := match o with Some x => [x] | None => [] end.
Definition key_dec : forall a b : option item_key, {a = b} + {a <> b}.
Proof. decide equality. decide equality. Defined.
(** the text of a value *)
Definition value_str (d : adata) : option str :=
  match d with AUtf8 s | AUtf16 s => Some s | ABool b => Some (if b then $"1" else $"0") | _ => None end.
(** all texts of the atoms that stand for the item key, in order *)
Definition texts (k : item_key) (l : ilst) : list str :=
  flat_map (fun a => if key_dec (key_of_ident (at_ident a)) (Some k) then TagModel.filter_map value_str (at_data a) else []) l.
Definition covers (l : ilst) : list picture := all_pictures (only covr_ident l).
Definition NUMBERS : list item_key := [KTrackNumber; KTrackTotal; KDiscNumber; KDiscTotal].
(** the key an item has after it was stored *)
Definition lands (k : item_key) : option item_key := match ident_of_key k with Some i => key_of_ident i | None => None end.
(** how the text of an item is stored *)
Definition stored (k : item_key) (s : str) : option str :=
  match k with
  | KFlagCompilation | KFlagPodcast =>
      if list_eqb s ($"1") || list_eqb s ($"true") then Some ($"1") else if list_eqb s ($"0") || list_eqb s ($"false") then Some ($"0") else None
  | _ => Some s
  end.
Definition landing (k : item_key) (l : list tag_item) : list str :=
  TagModel.filter_map (fun x => match it_value x with VText s => if key_dec (lands (it_key x)) (Some k) then stored k s else None | _ => None end) l.

(** ** Lemmas *)
Lemma fm_app : forall A B (f : A -> option B) a b, TagModel.filter_map f (a ++ b) = TagModel.filter_map f a ++ TagModel.filter_map f b.
Proof. induction a; cbn; intros; auto. rewrite IHa. destruct (f a); auto. Qed.
Lemma texts_app : forall k a b, texts k (a ++ b) = texts k a ++ texts k b.
Proof. intros. apply flat_map_app. Qed.
Lemma all_pictures_app : forall a b, all_pictures (a ++ b) = all_pictures a ++ all_pictures b.
Proof. intros. apply flat_map_app. Qed.
Lemma gs_push : forall (t : mtag) k k' s, get_strings (push_unchecked (new_item k' (VText s)) t) k = get_strings t k ++ (if key_dec (Some k') (Some k) then [s] else []).
Proof.
  intros. unfold get_strings, push_unchecked. cbn [with_items t_items]. rewrite fm_app. f_equal. cbn [TagModel.filter_map it_key new_item it_value value_text].
  destruct (key_dec (Some k') (Some k)) as [E|E]. inversion E. now rewrite ik_eqb_refl. rewrite ik_eqb_neq by congruence. reflexivity.
Qed.
Lemma ilst_supports : forall k, In k (KParentalAdvisory :: NUMBERS) -> supports Mp4Ilst k = true.
Proof. intros k [<-|[<-|[<-|[<-|[<-|[]]]]]]; reflexivity. Qed.
Lemma gs_filter : forall (l : list tag_item) k k', k' <> k ->
  TagModel.filter_map (fun i => if ik_eqb (it_key i) k then value_text (it_value i) else None) (filter (fun j => negb (ik_eqb (it_key j) k')) l) =
  TagModel.filter_map (fun i => if ik_eqb (it_key i) k then value_text (it_value i) else None) l.
Proof.
  induction l as [|x l IH]; intros; auto. cbn [filter TagModel.filter_map]. destruct (ik_eqb (it_key x) k') eqn:E; cbn [negb].
  - rewrite IH by auto. apply ik_eqb_eq in E. rewrite E, ik_eqb_neq; auto.
  - cbn [TagModel.filter_map]. now rewrite IH.
Qed.
Lemma gs_insert_ne : forall (t : mtag) k k' s, k' <> k -> get_strings (snd (insert_text k' s t)) k = get_strings t k.
Proof.
  intros. unfold insert_text, insert. destruct (supports _ _); auto. cbn [snd]. unfold get_strings, insert_unchecked. cbn [with_items t_items]. rewrite fm_app. cbn [new_item it_key TagModel.filter_map].
  rewrite (ik_eqb_neq k' k) by auto. rewrite app_nil_r. now apply gs_filter.
Qed.
Lemma gs_insert_eq : forall (t : mtag) k s, supports (t_type t) k = true -> get_strings (snd (insert_text k s t)) k = [s].
Proof.
  intros t k s H. unfold insert_text, insert. cbn [it_key new_item]. rewrite H. cbn [snd]. unfold get_strings, insert_unchecked. cbn [with_items t_items]. rewrite fm_app. cbn [new_item it_key TagModel.filter_map it_value value_text].
  rewrite ik_eqb_refl. assert (E : forall l, TagModel.filter_map (fun i => if ik_eqb (it_key i) k then value_text (it_value i) else None) (filter (fun j => negb (ik_eqb (it_key j) k)) l) = []).
  { clear. induction l as [|x l IH]; auto. cbn [filter]. destruct (ik_eqb (it_key x) k) eqn:E; cbn [negb TagModel.filter_map]; auto. now rewrite E. }
  now rewrite E.
Qed.
Lemma insert_type : forall (t : mtag) k s, t_type (snd (insert_text k s t)) = t_type t.
Proof. intros. unfold insert_text, insert. destruct (supports _ _); reflexivity. Qed.
Lemma insert_pics : forall (t : mtag) k s, t_pictures (snd (insert_text k s t)) = t_pictures t.
Proof. intros. unfold insert_text, insert. destruct (supports _ _); reflexivity. Qed.
Lemma insert_comp : forall (t : mtag) k s, t_companion (snd (insert_text k s t)) = t_companion t.
Proof. intros. unfold insert_text, insert. destruct (supports _ _); reflexivity. Qed.

(** *** one value *)
Lemma pair_keys_in : forall i a b, pair_keys i = Some (a, b) -> In a NUMBERS /\ In b NUMBERS.
Proof. intros i a b. unfold pair_keys, NUMBERS. destruct (ident_eqb i TRKN); [|destruct (ident_eqb i DISK); [|discriminate]]; intro H; inversion H; cbn; auto 10. Qed.
Lemma add_number_ne : forall (t : mtag) k k' n, k' <> k -> get_strings (add_number k' n t) k = get_strings t k.
Proof. intros. unfold add_number. destruct (0 <? n); auto. now apply gs_insert_ne. Qed.
Lemma add_number_pics : forall (t : mtag) k n, t_pictures (add_number k n t) = t_pictures t /\ t_type (add_number k n t) = t_type t /\ t_companion (add_number k n t) = t_companion t.
Proof. intros. unfold add_number. destruct (0 <? n); auto. rewrite insert_pics, insert_type, insert_comp. auto. Qed.
Lemma split_value_texts : forall key i v t k, ~ In k NUMBERS ->
  get_strings (snd (split_value key i v t)) k = get_strings t k ++ (if key_dec key (Some k) then opt_list (value_str v) else []).
Proof.
  intros key i v t k NK.
  assert (P : forall s, get_strings (match key with Some k => push_unchecked (new_item k (VText s)) t | None => t end) k = get_strings t k ++ (if key_dec key (Some k) then [s] else [])).
  { intro s. destruct key as [k'|]. apply gs_push. destruct (key_dec None (Some k)); [discriminate|]. now rewrite app_nil_r. }
  assert (Q : forall X : list str, X ++ (if key_dec key (Some k) then [] else []) = X) by (intro; destruct (key_dec key (Some k)); apply app_nil_r).
  destruct v as [s|s|p|z|n|b|c d]; cbn [split_value snd value_str opt_list]; rewrite ?Q; auto.
  - destruct key; reflexivity.
  - destruct (_ && _); auto. destruct (pair_keys i) as [[a b]|] eqn:PK; auto. cbn [snd]. apply pair_keys_in in PK as [A B].
    rewrite !add_number_ne; auto; intro; subst; tauto.
Qed.
Lemma split_value_pics : forall key i v t,
  t_pictures (snd (split_value key i v t)) = t_pictures t ++ (if key_dec key None then opt_list (pic_of v) else []) /\
  t_type (snd (split_value key i v t)) = t_type t /\ t_companion (snd (split_value key i v t)) = t_companion t.
Proof.
  intros key i v t.
  assert (Q : forall X : list picture, X ++ (if key_dec key None then [] else []) = X) by (intro; destruct (key_dec key None); apply app_nil_r).
  destruct v as [s|s|p|z|n|b|c d]; cbn [split_value snd pic_of opt_list]; rewrite ?Q; auto.
  - destruct key; auto.
  - destruct key; auto.
  - destruct key; cbn [key_dec]. destruct (key_dec _ _); [discriminate|]. rewrite app_nil_r. auto. destruct (key_dec _ _); [|congruence]. auto.
  - destruct key; auto.
  - destruct (_ && _); auto. destruct (pair_keys i) as [[a b]|] eqn:PK; auto. cbn [snd].
    match goal with |- context [add_number b ?n ?u] => destruct (add_number_pics u b n) as (-> & -> & ->) end.
    match goal with |- context [add_number a ?n ?u] => destruct (add_number_pics u a n) as (-> & -> & ->) end. auto.
Qed.
(** what is left of a value *)
Definition left_over (i : ident) (d : adata) : bool :=
  match d with
  | ASigned _ | AUnsigned _ => true
  | AUnknown c b => negb ((c =? 0) && (6 <=? lenN b) && (if ident_dec i TRKN then true else if ident_dec i DISK then true else false))
  | _ => false
  end.
Lemma split_value_left : forall key i v t, fst (split_value key i v t) = left_over i v.
Proof.
  intros. destruct v as [s|s|p|z|n|b|c d]; cbn [split_value fst left_over]; auto. unfold pair_keys, DT_RESERVED. rewrite !ident_eqb_dec.
  destruct (c =? 0), (6 <=? lenN d), (ident_dec i TRKN), (ident_dec i DISK); reflexivity.
Qed.

(** *** all values of an atom *)
Lemma split_values_spec : forall vs key i t,
  fst (split_values key i vs t) = filter (left_over i) vs /\
  (forall k, ~ In k NUMBERS -> get_strings (snd (split_values key i vs t)) k = get_strings t k ++ (if key_dec key (Some k) then TagModel.filter_map value_str vs else [])) /\
  t_pictures (snd (split_values key i vs t)) = t_pictures t ++ (if key_dec key None then data_pictures vs else []) /\
  t_type (snd (split_values key i vs t)) = t_type t /\ t_companion (snd (split_values key i vs t)) = t_companion t.
Proof.
  induction vs as [|v vs IH]; intros key i t; cbn [split_values].
  - cbn [fst snd filter TagModel.filter_map data_pictures]. repeat split; intros; destruct (key_dec _ _); now rewrite app_nil_r.
  - pose proof (split_value_texts key i v t) as T. pose proof (split_value_pics key i v t) as (P & TY & CO). pose proof (split_value_left key i v t) as L.
    destruct (split_value key i v t) as [b t1]. cbn [fst snd] in *. specialize (IH key i t1) as (A & B & C & D & E).
    destruct (split_values key i vs t1) as [rest t2]. cbn [fst snd] in *. repeat split.
    + cbn [filter]. rewrite <- L, <- A. destruct b; reflexivity.
    + intros k NK. rewrite B, T, <- app_assoc by auto. f_equal. destruct (key_dec key (Some k)); auto. cbn [TagModel.filter_map]. destruct (value_str v); reflexivity.
    + rewrite C, P, <- app_assoc. f_equal. destruct (key_dec key None); auto. unfold data_pictures. cbn [TagModel.filter_map]. destruct (pic_of v); reflexivity.
    + congruence.
    + congruence.
Qed.
(** what is left of an atom *)
Definition atom_left (a : atom) : option atom :=
  if key_dec (key_of_ident (at_ident a)) None then
    if ident_dec (at_ident a) covr_ident then match filter (left_over (at_ident a)) (at_data a) with [] => None | vs => Some (mkAtom (at_ident a) vs) end
    else Some a
  else match filter (left_over (at_ident a)) (at_data a) with [] => None | vs => Some (mkAtom (at_ident a) vs) end.
Lemma covr_unknown : key_of_ident covr_ident = None.
Proof. vm_compute. reflexivity. Qed.
Lemma split_atom_spec : forall a t,
  fst (split_atom a t) = atom_left a /\
  (forall k, ~ In k NUMBERS -> get_strings (snd (split_atom a t)) k = get_strings t k ++ texts k [a]) /\
  t_pictures (snd (split_atom a t)) = t_pictures t ++ covers [a] /\
  t_type (snd (split_atom a t)) = t_type t /\ t_companion (snd (split_atom a t)) = t_companion t.
Proof.
  intros [i vs] t. unfold split_atom, atom_left, texts, covers, only, all_pictures. cbn [at_ident at_data flat_map filter]. rewrite ident_eqb_dec.
  destruct (key_of_ident i) as [k'|] eqn:K; [|destruct (ident_dec i covr_ident) as [->|NC]].
  - destruct (split_values_spec vs (Some k') i t) as (A & B & C & D & E). destruct (split_values (Some k') i vs t) as [rest t1]. cbn [fst snd] in *.
    assert (NC : i <> covr_ident) by (intros ->; rewrite covr_unknown in K; discriminate). destruct (ident_dec i covr_ident); [congruence|].
    destruct (key_dec (Some k') None); [discriminate|]. cbn [flat_map]. rewrite <- A. split; [now destruct rest|]. split; [|auto].
    intros k NK. rewrite app_nil_r. auto.
  - destruct (split_values_spec vs None covr_ident t) as (A & B & C & D & E). destruct (split_values None covr_ident vs t) as [rest t1]. cbn [fst snd] in *.
    destruct (key_dec None None); [|congruence]. cbn [flat_map at_data]. rewrite <- A. split; [now destruct rest|]. split; [|split; auto].
    + intros k NK. rewrite B by auto. destruct (key_dec None (Some k)); [discriminate|]. reflexivity.
    + now rewrite app_nil_r.
  - cbn [fst snd flat_map]. destruct (key_dec None None); [|congruence]. repeat split; auto.
    + intros k NK. destruct (key_dec None (Some k)); [discriminate|]. now rewrite app_nil_r.
    + now rewrite app_nil_r.
Qed.
Lemma split_atoms_spec : forall l t,
  fst (split_atoms l t) = TagModel.filter_map atom_left l /\
  (forall k, ~ In k NUMBERS -> get_strings (snd (split_atoms l t)) k = get_strings t k ++ texts k l) /\
  t_pictures (snd (split_atoms l t)) = t_pictures t ++ covers l /\
  t_type (snd (split_atoms l t)) = t_type t /\ t_companion (snd (split_atoms l t)) = t_companion t.
Proof.
  induction l as [|a l IH]; intro t; cbn [split_atoms].
  - cbn [fst snd TagModel.filter_map texts covers only all_pictures flat_map filter]. repeat split; intros; now rewrite app_nil_r.
  - destruct (split_atom_spec a t) as (A & B & C & D & E). destruct (split_atom a t) as [o t1]. cbn [fst snd] in *.
    destruct (IH t1) as (A2 & B2 & C2 & D2 & E2). destruct (split_atoms l t1) as [rest t2]. cbn [fst snd] in *.
    change (a :: l) with ([a] ++ l). repeat split.
    + cbn [app TagModel.filter_map]. rewrite <- A, A2. destruct o; reflexivity.
    + intros k NK. rewrite B2, B, texts_app, app_assoc by auto. reflexivity.
    + unfold covers. rewrite only_app, all_pictures_app. rewrite C2, C, app_assoc. reflexivity.
    + congruence.
    + congruence.
Qed.
(** *** all items have a text, the usual language and a key of the table *)
Definition item_good (x : tag_item) : Prop := exists k s, x = new_item k (VText s) /\ (In k (KParentalAdvisory :: NUMBERS) \/ exists i, key_of_ident i = Some k).
Lemma good_push : forall (t : mtag) k s, (exists i, key_of_ident i = Some k) -> Forall item_good (t_items t) -> Forall item_good (t_items (push_unchecked (new_item k (VText s)) t)).
Proof. intros. unfold push_unchecked. cbn [with_items t_items]. apply Forall_app. split; auto. constructor; auto. exists k, s. auto. Qed.
Lemma good_insert : forall (t : mtag) k s, In k (KParentalAdvisory :: NUMBERS) -> Forall item_good (t_items t) -> Forall item_good (t_items (snd (insert_text k s t))).
Proof.
  intros. unfold insert_text, insert. destruct (supports _ _); auto. cbn [snd]. unfold insert_unchecked. cbn [with_items t_items]. apply Forall_app. split.
  apply incl_Forall with (2 := H0). intros x X. now apply filter_In in X. constructor; auto. exists k, s. auto.
Qed.
Lemma good_value : forall key i v t, (forall k, key = Some k -> exists i, key_of_ident i = Some k) -> Forall item_good (t_items t) -> Forall item_good (t_items (snd (split_value key i v t))).
Proof.
  intros key i v t K G. destruct v as [s|s|p|z|n|b|c d]; cbn [split_value snd]; auto; try (destruct key; auto; apply good_push; auto; fail).
  - destruct (_ && _); auto. destruct (pair_keys i) as [[a b]|] eqn:PK; auto. cbn [snd]. apply pair_keys_in in PK as [A B]. unfold add_number.
    assert (X : forall n k (u : mtag), In k NUMBERS -> Forall item_good (t_items u) -> Forall item_good (t_items (if 0 <? n then snd (insert_text k (to_dec n) u) else u))).
    { intros. destruct (0 <? n); auto. apply good_insert; auto. now right. }
    apply X; auto.
Qed.
Lemma good_values : forall vs key i t, (forall k, key = Some k -> exists i, key_of_ident i = Some k) -> Forall item_good (t_items t) -> Forall item_good (t_items (snd (split_values key i vs t))).
Proof.
  induction vs as [|v vs IH]; intros key i t K G; cbn [split_values]; auto. pose proof (good_value key i v t K G) as X. destruct (split_value key i v t) as [b t1]. cbn [snd] in X.
  specialize (IH key i t1 K X). destruct (split_values key i vs t1). exact IH.
Qed.
Lemma good_atom : forall a t, Forall item_good (t_items t) -> Forall item_good (t_items (snd (split_atom a t))).
Proof.
  intros [i vs] t G. unfold split_atom. cbn [at_ident at_data]. destruct (key_of_ident i) as [k|] eqn:K.
  - pose proof (good_values vs (Some k) i t) as X. destruct (split_values _ _ _ _). apply X; auto. intros k' E. inversion E; subst. eauto.
  - destruct (ident_eqb i covr_ident); auto. pose proof (good_values vs None i t) as X. destruct (split_values _ _ _ _). apply X; auto. discriminate.
Qed.
Lemma good_atoms : forall l t, Forall item_good (t_items t) -> Forall item_good (t_items (snd (split_atoms l t))).
Proof.
  induction l as [|a l IH]; intros t G; cbn [split_atoms]; auto. pose proof (good_atom a t G) as X. destruct (split_atom a t) as [o t1]. cbn [snd] in X.
  specialize (IH t1 X). destruct (split_atoms l t1). exact IH.
Qed.

(** *** the tables *)
Lemma from_key_row : forall (P : item_key -> bool) s k, forallb (fun e : str * list item_key => match snd e with k :: _ => P k | [] => true end) (instance (table Mp4Ilst)) = true ->
  from_key Mp4Ilst s = Some k -> P k = true.
Proof.
  intros P s k F E. unfold from_key, get_item_key in E. destruct (find _ _) as [[s' v]|] eqn:FI; [|discriminate]. apply find_some in FI as [I _].
  rewrite forallb_forall in F. specialize (F _ I). cbn [snd] in F. destruct v; inversion E. now subst.
Qed.
(** keys that come from an atom are the same after they were stored *)
Lemma key_lands : forall i k, key_of_ident i = Some k -> lands k = Some k.
Proof.
  intros i k E. unfold key_of_ident in E. apply (from_key_row (fun k => match lands k with Some k' => ik_eqb k' k | None => false end)) in E.
  - destruct (lands k) as [k'|]; [|discriminate]. apply ik_eqb_eq in E. now subst.
  - vm_compute. reflexivity.
Qed.
Lemma pa_lands : forall k, In k (KParentalAdvisory :: NUMBERS) -> lands k = Some k \/ exists k', lands k = Some k' /\ In k' NUMBERS.
Proof. intros k [<-|[<-|[<-|[<-|[<-|[]]]]]]; vm_compute; eauto 10. Qed.
Lemma landing_good : forall k l, ~ In k NUMBERS -> Forall item_good l ->
  landing k l = TagModel.filter_map (stored k) (TagModel.filter_map (fun i => if ik_eqb (it_key i) k then value_text (it_value i) else None) l).
Proof.
  intros k l NK. unfold landing. induction l as [|x l IH]; intro F; auto. apply Forall_cons_iff in F as [(k' & s & -> & G) F]. cbn [TagModel.filter_map new_item it_key it_value value_text].
  rewrite IH by auto. destruct (ik_eqb k' k) eqn:E.
  - apply ik_eqb_eq in E. subst k'. cbn [TagModel.filter_map]. assert (L : lands k = Some k).
    { destruct G as [G|[i G]]; [|eapply key_lands; eauto]. destruct (pa_lands k G) as [?|(k' & L & I)]; auto. destruct G as [<-|G]; [|tauto]. reflexivity. }
    rewrite L. destruct (key_dec (Some k) (Some k)); [|congruence]. reflexivity.
  - assert (L : lands k' <> Some k).
    { destruct G as [G|[i G]]. destruct (pa_lands k' G) as [->|(k2 & -> & I)]. intro X. inversion X. subst. rewrite ik_eqb_refl in E. discriminate. intro X. inversion X; subst. tauto.
      rewrite (key_lands _ _ G). intro X. inversion X. subst. rewrite ik_eqb_refl in E. discriminate. }
    destruct (key_dec (lands k') (Some k)); [congruence|]. reflexivity.
Qed.

(** *** merging *)
Definition item_atoms (x : tag_item) : list atom := snd (merge_item x (mkPairs None None None None)).
Lemma merge_item_atoms : forall x p, snd (merge_item x p) = item_atoms x.
Proof. intros. unfold item_atoms, merge_item. destruct (ident_of_key _); auto. destruct (it_value x); auto. destruct (it_key x); reflexivity. Qed.
Lemma merge_items_atoms : forall l p, snd (merge_items l p) = flat_map item_atoms l.
Proof.
  induction l as [|x l IH]; intro p; cbn [merge_items flat_map]; auto. pose proof (merge_item_atoms x p) as A. destruct (merge_item x p) as [p1 a]. cbn [snd] in A. specialize (IH p1).
  destruct (merge_items l p1). cbn [snd] in *. congruence.
Qed.
Definition nums (k : item_key) (l : list tag_item) : list str := TagModel.filter_map (fun i => if ik_eqb (it_key i) k then value_text (it_value i) else None) l.
Lemma merge_item_pairs : forall x p, let q := fst (merge_item x p) in
  p_track q = fold_left uint_or (nums KTrackNumber [x]) (p_track p) /\ p_tracks q = fold_left uint_or (nums KTrackTotal [x]) (p_tracks p) /\
  p_disc q = fold_left uint_or (nums KDiscNumber [x]) (p_disc p) /\ p_discs q = fold_left uint_or (nums KDiscTotal [x]) (p_discs p).
Proof.
  intros [lg de k v] p q. subst q. unfold merge_item, nums. cbn [it_key it_value TagModel.filter_map].
  destruct v as [s|s|b]; [|destruct k; vm_compute; auto|destruct k; vm_compute; auto].
  destruct p as [a b c d]. destruct k; cbn [value_text]; unfold ident_of_key;
    try (match goal with |- context [map_key Mp4Ilst ?k] => let v := eval vm_compute in (map_key Mp4Ilst k) in change (map_key Mp4Ilst k) with v end; cbn [fst]);
    try (match goal with |- context [ident_of_str ?k] => let v := eval vm_compute in (ident_of_str k) in change (ident_of_str k) with v end; cbn [fst merge_text]);
    cbv [ik_eqb]; cbn [ik_index N.eqb Pos.eqb fold_left p_track p_tracks p_disc p_discs fst]; auto.
Qed.
Lemma merge_items_pairs : forall l p, let q := fst (merge_items l p) in
  p_track q = fold_left uint_or (nums KTrackNumber l) (p_track p) /\ p_tracks q = fold_left uint_or (nums KTrackTotal l) (p_tracks p) /\
  p_disc q = fold_left uint_or (nums KDiscNumber l) (p_disc p) /\ p_discs q = fold_left uint_or (nums KDiscTotal l) (p_discs p).
Proof.
  induction l as [|x l IH]; intro p; cbn [merge_items]. cbn. auto.
  pose proof (merge_item_pairs x p) as A. destruct (merge_item x p) as [p1 a]. cbn [fst] in A. specialize (IH p1). destruct (merge_items l p1) as [p2 r]. cbn [fst] in *.
  assert (NA : forall k, nums k (x :: l) = nums k [x] ++ nums k l) by (intro; apply (fm_app _ _ _ [x] l)). rewrite !NA, !fold_left_app.
  destruct A as (<- & <- & <- & <-). exact IH.
Qed.
Lemma merge_eq : forall rest t, let t0 := nums KTrackNumber (t_items t) in
  merge_tag rest t = rest ++ flat_map item_atoms (t_items t) ++ covr_atom (t_pictures t) ++
    int_pair TRKN (fold_left uint_or (nums KTrackNumber (t_items t)) None) (fold_left uint_or (nums KTrackTotal (t_items t)) None) ++
    int_pair DISK (fold_left uint_or (nums KDiscNumber (t_items t)) None) (fold_left uint_or (nums KDiscTotal (t_items t)) None).
Proof.
  intros. unfold merge_tag. pose proof (merge_items_atoms (t_items t) (mkPairs None None None None)) as A. pose proof (merge_items_pairs (t_items t) (mkPairs None None None None)) as B.
  destruct (merge_items _ _) as [q a]. cbn [fst snd p_track p_tracks p_disc p_discs] in *. destruct B as (-> & -> & -> & ->). now rewrite A.
Qed.
(** the atom of an item: its identifier and value *)
Definition is_special (k : item_key) : bool := existsb (ik_eqb k) (KParentalAdvisory :: NUMBERS).
Lemma item_atoms_spec : forall x a, In a (item_atoms x) -> exists i s, it_value x = VText s /\ ident_of_key (it_key x) = Some i /\ item_atoms x = [a] /\ at_ident a = i /\
  ((it_key x = KParentalAdvisory /\ exists n r, parse_uint U8_MAX s = Some n /\ rating_of n = Some r /\ at_data a = [ASigned (Z.of_N (rating_u8 r))]) \/
   (~ In (it_key x) (KParentalAdvisory :: NUMBERS) /\ exists d s', at_data a = [d] /\ value_str d = Some s' /\ stored (it_key x) s = Some s')).
Proof.
  intros x a. unfold item_atoms, merge_item. destruct (ident_of_key (it_key x)) as [i|]; [|intros []]. destruct (it_value x) as [s|s|s]; [|intros []|intros []]. intro I. exists i, s. split; auto. split; auto.
  assert (T : snd (merge_text (it_key x) i s (mkPairs None None None None)) = [mkAtom i [AUtf8 s]] ->
     ~ In (it_key x) (KParentalAdvisory :: NUMBERS) -> stored (it_key x) s = Some s -> snd (merge_text (it_key x) i s (mkPairs None None None None)) = [a] /\ at_ident a = i /\
     ((it_key x = KParentalAdvisory /\ exists n r, parse_uint U8_MAX s = Some n /\ rating_of n = Some r /\ at_data a = [ASigned (Z.of_N (rating_u8 r))]) \/
      (~ In (it_key x) (KParentalAdvisory :: NUMBERS) /\ exists d s', at_data a = [d] /\ value_str d = Some s' /\ stored (it_key x) s = Some s'))).
  { intros E NI ST. rewrite E in *. destruct I as [<-|[]]. split; auto. split; auto. right. split; auto. exists (AUtf8 s), s. auto. }
  assert (FL : (it_key x = KFlagCompilation \/ it_key x = KFlagPodcast) -> snd (merge_text (it_key x) i s (mkPairs None None None None)) = [a] /\ at_ident a = i /\
     ((it_key x = KParentalAdvisory /\ exists n r, parse_uint U8_MAX s = Some n /\ rating_of n = Some r /\ at_data a = [ASigned (Z.of_N (rating_u8 r))]) \/
      (~ In (it_key x) (KParentalAdvisory :: NUMBERS) /\ exists d s', at_data a = [d] /\ value_str d = Some s' /\ stored (it_key x) s = Some s'))).
  { intro FK. assert (SN : snd (merge_text (it_key x) i s (mkPairs None None None None)) = match ApeModel.flag_item s with Some b => [mkAtom i [ABool b]] | None => [] end) by (destruct FK as [-> | ->]; reflexivity).
    assert (ST : stored (it_key x) s = option_map (fun b : bool => if b then $"1" else $"0") (ApeModel.flag_item s)).
    { unfold ApeModel.flag_item. destruct FK as [-> | ->]; cbn [stored]; destruct (_ || _); auto; destruct (_ || _); auto. }
    rewrite SN in *. destruct (ApeModel.flag_item s) as [b|]; [|destruct I]. destruct I as [<-|[]]. split; auto. split; auto. right. split.
    destruct FK as [-> | ->]; cbn; intros [X|[X|[X|[X|[X|[]]]]]]; discriminate. exists (ABool b), (if b then $"1" else $"0"). rewrite ST. auto. }
  destruct (it_key x); try (apply T; [reflexivity| |reflexivity]; cbn; intros [X|[X|[X|[X|[X|[]]]]]]; discriminate); try (destruct I; fail); try (apply FL; auto; fail).
  cbn [merge_text snd] in *. destruct (parse_uint U8_MAX s) as [n|] eqn:PU; [|destruct I]. destruct (rating_of n) as [r|] eqn:RO; [|destruct I]. destruct I as [<-|[]]. split; auto. split; auto. left. split; auto. exists n, r. auto.
Qed.
