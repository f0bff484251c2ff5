(** The interface of an Ilst: C125 - C130. *)
From Coq Require Import Permutation.
From Verif Require Import BaseLemmas StrLemmas ItemKeyThm TimestampSpec TimestampProof TimestampThm TextProof PictureThm TagThm IlstModel.

(** ** Specification *)
Definition ident_dec : forall a b : ident, {a = b} + {a <> b}.
Proof. decide equality; apply (list_eq_dec N.eq_dec). Defined.
Definition only (i : ident) (l : ilst) : ilst := filter (fun a => if ident_dec (at_ident a) i then true else false) l.
Definition others (i : ident) (l : ilst) : ilst := filter (fun a => if ident_dec (at_ident a) i then false else true) l.
Definition data_ok (d : adata) : Prop := match d with AUnknown _ b => bytes_ok b | _ => True end.
Definition ilst_ok (l : ilst) : Prop := Forall (fun a => Forall data_ok (at_data a)) l.

(** ** Lemmas *)
Lemma ident_eqb_eq : forall a b, ident_eqb a b = true <-> a = b.
Proof.
  intros [x|m n] [y|m' n']; cbn [ident_eqb]; try (split; discriminate).
  - rewrite list_eqb_eq. split; congruence.
  - rewrite andb_true_iff, !list_eqb_eq. split. intros [-> ->]; auto. intro H. inversion H. auto.
Qed.
Lemma ident_eqb_refl : forall a, ident_eqb a a = true.
Proof. intro. now apply ident_eqb_eq. Qed.
Lemma ident_eqb_neq : forall a b, a <> b -> ident_eqb a b = false.
Proof. intros. destruct (ident_eqb a b) eqn:E; auto. apply ident_eqb_eq in E. congruence. Qed.
Lemma ident_eqb_dec : forall a b, ident_eqb a b = if ident_dec a b then true else false.
Proof. intros. destruct (ident_dec a b) as [->|H]. apply ident_eqb_refl. now apply ident_eqb_neq. Qed.
Lemma get_only : forall i l, ilst_get i l = hd_error (only i l).
Proof. intros. unfold ilst_get, only. induction l; cbn; auto. rewrite ident_eqb_dec. destruct (ident_dec _ _); auto. Qed.
Lemma only_app : forall i a b, only i (a ++ b) = only i a ++ only i b.
Proof. intros. apply filter_app. Qed.
Lemma others_app : forall i a b, others i (a ++ b) = others i a ++ others i b.
Proof. intros. apply filter_app. Qed.
Lemma only_others : forall i l, only i (others i l) = [].
Proof. unfold only, others. induction l; cbn; auto. destruct (ident_dec (at_ident a) i) eqn:E; cbn; auto. now rewrite E. Qed.
Lemma only_others_ne : forall i j l, i <> j -> only j (others i l) = only j l.
Proof.
  unfold only, others. induction l; cbn; intros; auto. destruct (ident_dec (at_ident a) i) as [E|E]; cbn.
  - rewrite IHl by auto. destruct (ident_dec (at_ident a) j); auto. congruence.
  - now rewrite IHl by auto.
Qed.
Lemma only_perm : forall i l l', Permutation l l' -> Permutation (only i l) (only i l').
Proof. unfold only. intros i l l' P. induction P; cbn; auto. destruct (ident_dec _ _); auto. destruct (ident_dec (at_ident x) i), (ident_dec (at_ident y) i); auto. apply perm_swap. eapply Permutation_trans; eauto. Qed.
Lemma perm_short : forall A (l l' : list A), Permutation l l' -> (length l' <= 1)%nat -> l = l'.
Proof.
  intros A l l' P L. destruct l' as [|x [|y l']]; cbn in L; [|apply Permutation_length_1_inv; now symmetry|lia]. now apply Permutation_nil.
Qed.

Lemma remove_loop_spec : forall i D A B,
  exists R, remove_loop (length D) (length (A ++ B)) (length A) i (A ++ B ++ D) = (A ++ only i D ++ R, length (A ++ only i D)) /\
            Permutation R (B ++ others i D).
Proof.
  intros i D. induction D as [|a D IH]; intros A B.
  - cbn [length remove_loop only others filter]. exists B. rewrite !app_nil_r. auto.
  - cbn [length remove_loop]. rewrite app_assoc, nth_error_mid, ident_eqb_dec. unfold only, others. cbn [filter]. fold (only i D) (others i D).
    destruct (ident_dec (at_ident a) i).
    + destruct B as [|b B].
      * rewrite app_nil_r, swap_same. destruct (IH (A ++ [a]) []) as (R & E & P). exists R. split; [|exact P].
        rewrite app_nil_r in E. repeat (rewrite <- app_assoc in E; cbn [app] in E). rewrite app_length in E at 1 2. cbn [length] in E.
        replace (length A + 1)%nat with (S (length A)) in E by lia. exact E.
      * replace ((A ++ b :: B) ++ a :: D) with (A ++ b :: B ++ a :: D) by (rewrite <- app_assoc; reflexivity).
        rewrite swap_mid. destruct (IH (A ++ [a]) (B ++ [b])) as (R & E & P). exists R. split.
        -- repeat (rewrite <- app_assoc in E; cbn [app] in E). cbn [app]. rewrite <- E. f_equal.
           rewrite !app_length. cbn. rewrite !app_length. cbn. lia. rewrite app_length. cbn. lia.
        -- rewrite P, <- app_assoc. cbn [app]. rewrite <- Permutation_middle. reflexivity.
    + destruct (IH A (B ++ [a])) as (R & E & P). exists R. rewrite <- app_assoc in P. split; auto. rewrite <- E.
      f_equal. rewrite !app_length. cbn. lia. rewrite <- !app_assoc. reflexivity.
Qed.
(** C125: removing and replacing. *)
Theorem C125_remove : forall i l, fst (ilst_remove i l) = only i l /\ Permutation (snd (ilst_remove i l)) (others i l).
Proof.
  intros. unfold ilst_remove. destruct (remove_loop_spec i l [] []) as (R & E & P). cbn [app length] in E, P. rewrite E.
  rewrite skipn_app, Nat.sub_diag, skipn_all, firstn_app, Nat.sub_diag, firstn_all. cbn [skipn firstn app fst snd]. rewrite app_nil_r. auto.
Qed.
Print Assumptions C125_remove.
Lemma removed_perm : forall i l, Permutation (removed i l) (others i l).
Proof. intros. apply C125_remove. Qed.
Lemma only_removed : forall i l, only i (removed i l) = [].
Proof. intros. pose proof (only_perm i _ _ (removed_perm i l)) as P. rewrite only_others in P. apply Permutation_sym in P. now apply Permutation_nil in P. Qed.
Lemma only_removed_ne : forall i j l, i <> j -> Permutation (only j (removed i l)) (only j l).
Proof. intros. rewrite (only_perm j _ _ (removed_perm i l)). now rewrite only_others_ne. Qed.
Lemma get_removed : forall i l, ilst_get i (removed i l) = None.
Proof. intros. now rewrite get_only, only_removed. Qed.
Lemma get_removed_ne : forall i j l, i <> j -> (length (only j l) <= 1)%nat -> ilst_get j (removed i l) = ilst_get j l.
Proof. intros. rewrite !get_only. now rewrite (perm_short _ _ _ (only_removed_ne i j l H)). Qed.
Theorem C125_replace : forall a l, ilst_get (at_ident a) (replace_atom a l) = Some a /\ only (at_ident a) (replace_atom a l) = [a] /\
  Permutation (replace_atom a l) (others (at_ident a) l ++ [a]).
Proof.
  intros. assert (O : only (at_ident a) (replace_atom a l) = [a]).
  { unfold replace_atom. rewrite only_app, only_removed. cbn. destruct (ident_dec _ _); congruence. }
  rewrite get_only, O. repeat split; auto. unfold replace_atom. now rewrite removed_perm.
Qed.
Print Assumptions C125_replace.
Lemma get_replace : forall a i l, at_ident a = i -> ilst_get i (replace_atom a l) = Some a.
Proof. intros. subst. apply C125_replace. Qed.
Lemma first_replace : forall i d l, first_value i (replace_atom (mkAtom i [d]) l) = Some d.
Proof. intros. unfold first_value. now rewrite get_replace. Qed.
Lemma first_removed : forall i l, first_value i (removed i l) = None.
Proof. intros. unfold first_value. now rewrite get_removed. Qed.
Theorem C125_other_partial : forall a l j, j <> at_ident a -> (length (only j l) <= 1)%nat ->
  ilst_get j (replace_atom a l) = ilst_get j l /\ ilst_get j (removed (at_ident a) l) = ilst_get j l.
Proof.
  intros a l j H L. rewrite get_removed_ne by auto. split; auto. rewrite <- (get_removed_ne (at_ident a) j l) by auto.
  rewrite !get_only. unfold replace_atom. rewrite only_app. unfold only at 2. cbn [filter]. destruct (ident_dec (at_ident a) j); [congruence|]. now rewrite app_nil_r.
Qed.
Print Assumptions C125_other_partial.
Definition two_artists : ilst := [mkAtom ARTIST [AUtf8 ($"a")]; mkAtom ARTIST [AUtf8 ($"b")]; mkAtom TITLE [AUtf8 ($"t")]].
(** With two artist atoms, setting the title changes the artist. *)
Theorem C125_other_refuted : ~ (forall i s l j, j <> i -> acc_text j (set_text i s l) = acc_text j l).
Proof. intro H. specialize (H TITLE ($"x") two_artists ARTIST). vm_compute in H. assert (X : Some [98] = Some [97]) by (apply H; discriminate). discriminate. Qed.
Print Assumptions C125_other_refuted.
Theorem C125_order_refuted : ~ (forall i l, snd (ilst_remove i l) = others i l).
Proof. intro H. specialize (H TITLE two_artists). vm_compute in H. discriminate. Qed.
Print Assumptions C125_order_refuted.
Example C125_ex : ilst_remove TITLE two_artists = ([mkAtom TITLE [AUtf8 ($"t")]], [mkAtom ARTIST [AUtf8 ($"b")]; mkAtom ARTIST [AUtf8 ($"a")]]) /\
  replace_atom (mkAtom TITLE [AUtf8 ($"n")]) [mkAtom TITLE [AUtf8 ($"t")]; mkAtom ARTIST [AUtf8 ($"a")]; mkAtom TITLE [AUtf8 ($"u")]] =
    [mkAtom ARTIST [AUtf8 ($"a")]; mkAtom TITLE [AUtf8 ($"n")]].
Proof. vm_compute. auto. Qed.

(** C126: accessors. *)
Theorem C126_text : forall i s l, acc_text i (set_text i s l) = Some s /\ acc_text i (removed i l) = None /\
  (forall j, j <> i -> (length (only j l) <= 1)%nat -> acc_text j (set_text i s l) = acc_text j l).
Proof.
  intros. unfold acc_text, set_text. rewrite first_replace, first_removed. repeat split; auto. intros j J L. unfold first_value.
  rewrite (proj1 (C125_other_partial (mkAtom i [AUtf8 s]) l j J L)). reflexivity.
Qed.
Print Assumptions C126_text.
Lemma u16_dec : forall n, n < 2 ^ 16 -> be_dec (u16_be n) = n.
Proof. intros. unfold u16_be. rewrite N.mod_small by auto. apply be_dec_enc. exact H. Qed.
Lemma pair_number : forall i n t l, number i (replace_atom (pair_atom i n t) l) = Some (n mod 2 ^ 16) /\ total i (replace_atom (pair_atom i n t) l) = Some (t mod 2 ^ 16).
Proof.
  intros. unfold number, total, extract_number, pair_atom. rewrite first_replace.
  assert (E : forall n, exists a b, u16_be n = [a; b]). { intro m. unfold u16_be. eexists _, _. reflexivity. }
  destruct (E n) as (a & b & En), (E t) as (c & d & Et). rewrite En, Et.
  change (lenN ([0; 0] ++ [a; b] ++ [c; d])) with 6. cbn [N.eqb andb N.leb N.compare Pos.compare Pos.compare_cont DT_RESERVED N.sub].
  change (byte_at ([0; 0] ++ [a; b] ++ [c; d]) (4 - 2)) with a. change (byte_at ([0; 0] ++ [a; b] ++ [c; d]) (4 - 1)) with b.
  change (byte_at ([0; 0] ++ [a; b] ++ [c; d]) (6 - 2)) with c. change (byte_at ([0; 0] ++ [a; b] ++ [c; d]) (6 - 1)) with d.
  rewrite <- En, <- Et. unfold u16_be. rewrite !be_dec_enc by (apply N.mod_lt; discriminate). auto.
Qed.
Lemma first_ok : forall i l d, ilst_ok l -> first_value i l = Some d -> data_ok d.
Proof.
  intros i l d O F. unfold first_value in F. destruct (ilst_get i l) as [a|] eqn:G; [|discriminate]. apply find_some in G as [I _].
  unfold ilst_ok in O. rewrite Forall_forall in O. specialize (O a I). destruct (at_data a); [discriminate|]. inversion F; subst. now inversion O.
Qed.
Lemma extract_bound : forall i n l x, ilst_ok l -> extract_number i n l = Some x -> x < 2 ^ 16.
Proof.
  intros i n l x O E. unfold extract_number in E. destruct (first_value i l) as [[| | | | | |c b]|] eqn:F; try discriminate.
  destruct (_ && _); [|discriminate]. inversion E. pose proof (first_ok _ _ _ O F) as B. cbn in B.
  assert (K : forall m, byte_ok (byte_at b m)). { intro m. unfold byte_at. destruct (Nat.lt_ge_cases (N.to_nat m) (length b)). rewrite Forall_forall in B. apply B, nth_In; auto. rewrite nth_overflow by auto. unfold byte_ok. lia. }
  match goal with |- be_dec ?v < _ => pose proof (be_dec_bound v) as X; change (256 ^ lenN v) with (2 ^ 16) in X end. apply X. repeat constructor; apply K.
Qed.
Lemma or0_bound : forall i n l, ilst_ok l -> or0 (extract_number i n l) < 2 ^ 16.
Proof. intros. destruct (extract_number i n l) eqn:E; cbn [or0]. eapply extract_bound; eauto. reflexivity. Qed.
Theorem C126_numbers : forall i n l, ilst_ok l -> n < 2 ^ 16 ->
  number i (set_number i n l) = Some n /\ total i (set_number i n l) = Some (or0 (total i l)) /\
  total i (set_total i n l) = Some n /\ number i (set_total i n l) = Some (or0 (number i l)) /\
  number i (remove_total i l) = number i l /\ number i (removed i l) = None /\ total i (removed i l) = None.
Proof.
  intros i n l O H. unfold set_number, set_total. destruct (pair_number i n (or0 (total i l)) l) as [-> ->], (pair_number i (or0 (number i l)) n l) as [-> ->].
  rewrite !N.mod_small by (auto; apply or0_bound; auto). repeat split; auto.
  - unfold remove_total. destruct (number i l) as [m|] eqn:E.
    + rewrite (proj1 (pair_number i m 0 _)). rewrite N.mod_small; auto. eapply extract_bound; eauto.
    + unfold number, extract_number. now rewrite first_removed.
  - unfold number, extract_number. now rewrite first_removed.
  - unfold total, extract_number. now rewrite first_removed.
Qed.
Print Assumptions C126_numbers.
Theorem C126_large_refuted : ~ (forall i n l, n < 2 ^ 32 -> number i (set_number i n l) = Some n).
Proof. intro H. specialize (H TRKN 65537 [] eq_refl). vm_compute in H. discriminate. Qed.
Print Assumptions C126_large_refuted.
(** Setting only the number, or removing the total, leaves a total of 0. *)
Theorem C126_remove_total_refuted : ~ (forall i l, ilst_ok l -> total i (remove_total i l) = None).
Proof. intro H. specialize (H TRKN [pair_atom TRKN 3 9]). vm_compute in H. assert (X : Some 0 = None) by (apply H; repeat constructor). discriminate. Qed.
Print Assumptions C126_remove_total_refuted.
Theorem C126_date : forall d l, ts_verify d = Ok tt -> ilst_date (ilst_set_date d l) = Some d /\ ilst_date (removed DAY l) = None.
Proof.
  intros d l V. unfold ilst_date, ilst_set_date, set_text. rewrite first_replace, first_removed, utf8_ascii by apply display_ascii.
  now rewrite (proj1 (C18_roundtrip d Relaxed V)).
Qed.
Print Assumptions C126_date.
(** A date stored as UTF-16 is not seen, other texts are. *)
Theorem C126_utf16_date_refuted : ~ (forall d l, ts_verify d = Ok tt -> acc_text DAY l = Some (ts_display d) -> ilst_date l = Some d).
Proof. intro H. specialize (H (mkTs 2024 None None None None None) [mkAtom DAY [AUtf16 ($"2024")]]). vm_compute in H. assert (X : None = Some (mkTs 2024 None None None None None)) by (apply H; reflexivity). discriminate. Qed.
Print Assumptions C126_utf16_date_refuted.
Example C126_ex : number TRKN [mkAtom TRKN [AUnknown 0 [0; 0; 0; 3; 0; 9; 0; 0]]] = Some 3 /\ total TRKN [mkAtom TRKN [AUnknown 0 [0; 0; 0; 3; 0; 9]]] = Some 9 /\
  set_number TRKN 5 [mkAtom TRKN [AUnknown 0 [0; 0; 0; 3; 1; 9; 0; 0]]] = [mkAtom TRKN [AUnknown 0 [0; 0; 0; 5; 1; 9]]] /\
  number TRKN [mkAtom TRKN [AUtf8 ($"3")]] = None /\ total DISK [mkAtom DISK [AUnknown 0 [0; 0; 0; 3]]] = None.
Proof. vm_compute. auto. Qed.

(** C127: flags. *)
Theorem C127_flags : forall i b l, is_flag i (set_flag i b l) = b /\ get_flag i (set_flag i b l) = (if b then Some true else None) /\
  only i (set_flag i false l) = [] /\ only i (set_flag i true l) = [mkAtom i [ABool true]] /\
  (forall j, j <> i -> (length (only j l) <= 1)%nat -> ilst_get j (set_flag i b l) = ilst_get j l).
Proof.
  intros. assert (G : get_flag i (set_flag i b l) = if b then Some true else None).
  { unfold get_flag, set_flag. destruct b; cbn [negb]. now rewrite first_replace. now rewrite first_removed. }
  unfold is_flag. rewrite G. split; [destruct b; reflexivity|]. split; auto. split; [apply only_removed|]. split.
  - apply (C125_replace (mkAtom i [ABool true]) l).
  - intros j J L. destruct (C125_other_partial (mkAtom i [ABool true]) l j J L) as [A B]. unfold set_flag. destruct b; [exact A|exact B].
Qed.
Print Assumptions C127_flags.
Example C127_ex : is_flag (Fourcc ($"cpil")) [mkAtom (Fourcc ($"cpil")) [ABool false]] = false /\ is_flag (Fourcc ($"cpil")) [] = false /\
  set_flag (Fourcc ($"cpil")) true [mkAtom (Fourcc ($"cpil")) [ABool false]; mkAtom TITLE []] = [mkAtom TITLE []; mkAtom (Fourcc ($"cpil")) [ABool true]].
Proof. vm_compute. auto. Qed.

(** C128: the advisory rating. *)
Definition rating_value (d : adata) (n : N) : Prop := d = ASigned (Z.of_N n) \/ exists c b, d = AUnknown c (n :: b).
Definition means (n : N) (r : rating) : Prop := (n = 0 /\ r = Inoffensive) \/ (n = 1 /\ r = Explicit) \/ (n = 4 /\ r = Explicit) \/ (n = 2 /\ r = Clean).
Definition rates (d : adata) (r : rating) : Prop := exists n, rating_value d n /\ means n r.
Lemma rating_of_spec : forall n r, rating_of n = Some r <-> means n r.
Proof.
  intros. unfold rating_of, means. destruct (n =? 0) eqn:E0; [|destruct (n =? 1) eqn:E1; [|destruct (n =? 4) eqn:E4; [|destruct (n =? 2) eqn:E2]]]; cbn [orb];
    destruct r; split; intro H; try discriminate; try tauto; try (destruct H as [[]|[[]|[[]|[]]]]; (lia || discriminate || reflexivity)).
  all: try (apply N.eqb_eq in E0; tauto); try (apply N.eqb_eq in E1; tauto); try (apply N.eqb_eq in E4; tauto); try (apply N.eqb_eq in E2; tauto).
Qed.
Lemma data_rating_spec : forall d r, data_ok d -> data_rating d = Some r <-> rates d r.
Proof.
  intros d r O. unfold data_rating, rates, rating_value. split.
  - destruct (rating_byte d) as [n|] eqn:B; [|discriminate]. intro H. apply rating_of_spec in H. exists n. split; auto.
    destruct d as [| | |z| | |c b]; cbn in B; try discriminate.
    + destruct ((0 <=? z)%Z && (z <=? 255)%Z) eqn:Z0; [|discriminate]. inversion B. left. f_equal. lia.
    + destruct b; inversion B. subst. eauto.
  - intros (n & [-> | (c & b & ->)] & M); cbn [rating_byte hd_error].
    + assert (n <= 4) by (unfold means in M; lia). assert (Z0 : ((0 <=? Z.of_N n)%Z && (Z.of_N n <=? 255)%Z) = true) by lia. rewrite Z0, N2Z.id. now apply rating_of_spec.
    + now apply rating_of_spec.
Qed.
Theorem C128_rating : forall l r, ilst_ok l ->
  advisory_rating (set_advisory_rating r l) = Some r /\
  (advisory_rating l = Some r <-> exists a pre d post, ilst_get RTNG l = Some a /\ at_data a = pre ++ d :: post /\ rates d r /\
     Forall (fun x => forall r', ~ rates x r') pre).
Proof.
  intros l r O. split.
  - unfold advisory_rating, set_advisory_rating. rewrite get_replace by reflexivity. destruct r; reflexivity.
  - unfold advisory_rating. destruct (ilst_get RTNG l) as [a|] eqn:G.
    2:{ split; [discriminate|]. intros (a & ? & ? & ? & X & _). discriminate. }
    assert (OA : Forall data_ok (at_data a)). { apply find_some in G as [I _]. unfold ilst_ok in O. rewrite Forall_forall in O. auto. }
    assert (L : forall ds, Forall data_ok ds -> hd_error (TagModel.filter_map data_rating ds) = Some r <->
      exists pre d post, ds = pre ++ d :: post /\ rates d r /\ Forall (fun x => forall r', ~ rates x r') pre).
    { clear. induction ds as [|d ds IH]; intro O; cbn [TagModel.filter_map hd_error].
      - split; [discriminate|]. intros ([|] & ? & ? & X & _); discriminate.
      - apply Forall_cons_iff in O as [O1 O2]. destruct (data_rating d) as [r'|] eqn:D.
        + pose proof (proj1 (data_rating_spec d r' O1) D) as R'. cbn [hd_error]. split.
          * intro E. inversion E; subst. exists [], d, ds. auto.
          * intros ([|p pre] & x & post & E & R & F); inversion E; subst.
            apply data_rating_spec in R; auto. congruence. inversion F; subst. now apply H1 in R'.
        + assert (NR : forall r', ~ rates d r') by (intros r' R; apply data_rating_spec in R; auto; congruence). rewrite IH by auto. split.
          * intros (pre & x & post & -> & R & F). exists (d :: pre), x, post. auto.
          * intros ([|p pre] & x & post & E & R & F); inversion E; subst. now apply NR in R. exists pre, x, post. inversion F. auto. }
    rewrite (L _ OA). split.
    + intros (pre & d & post & E & R & F). exists a, pre, d, post. auto.
    + intros (a' & pre & d & post & E0 & E & R & F). inversion E0; subst. exists pre, d, post. auto.
Qed.
Print Assumptions C128_rating.
Example C128_ex : advisory_rating [mkAtom RTNG [AUtf8 []; ASigned 7; AUnknown 0 [4; 9]; ASigned 2]] = Some Explicit /\
  advisory_rating [mkAtom RTNG [ASigned (-1)]] = None /\ set_advisory_rating Clean [] = [mkAtom RTNG [ASigned 2]].
Proof. vm_compute. auto. Qed.

(** C129: [insert] adds to the values that are there. *)
Definition values (i : ident) (l : ilst) : list adata := match ilst_get i l with Some a => at_data a | None => [] end.
Lemma push_data_spec : forall i ds l,
  (ilst_get i l = None -> push_data i ds l = None) /\
  (forall a, ilst_get i l = Some a -> exists x y, l = x ++ a :: y /\ ilst_get i x = None /\ push_data i ds l = Some (x ++ mkAtom i (at_data a ++ ds) :: y)).
Proof.
  intros i ds. unfold ilst_get. induction l as [|b l [IH1 IH2]]; cbn [find push_data]; [split; auto; discriminate|].
  destruct (ident_eqb (at_ident b) i) eqn:E.
  - split; [discriminate|]. intros a A. inversion A; subst. exists [], l. apply ident_eqb_eq in E. rewrite E. auto.
  - split. intro H. now rewrite (IH1 H). intros a A. destruct (IH2 a A) as (x & y & -> & N1 & ->). exists (b :: x), y. cbn [app find]. now rewrite E.
Qed.
Lemma insert_or_push_spec : forall i ds l, values i (insert_or_push i ds l) = values i l ++ ds /\ others i (insert_or_push i ds l) = others i l /\
  ilst_get i (insert_or_push i ds l) = Some (mkAtom i (values i l ++ ds)).
Proof.
  intros. unfold insert_or_push. destruct (push_data_spec i ds l) as [H1 H2]. destruct (ilst_get i l) as [a|] eqn:G.
  - destruct (H2 a eq_refl) as (x & y & -> & N1 & ->). assert (GG : ilst_get i (x ++ mkAtom i (at_data a ++ ds) :: y) = Some (mkAtom i (at_data a ++ ds))).
    { rewrite get_only, only_app. rewrite get_only in N1. destruct (only i x); [|discriminate]. cbn. destruct (ident_dec i i); [reflexivity|congruence]. }
    unfold values. rewrite G, GG. repeat split. rewrite !others_app. f_equal. unfold others. cbn [filter at_ident].
    apply find_some in G as [_ E]. apply ident_eqb_eq in E. rewrite E. destruct (ident_dec i i); [reflexivity|congruence].
  - rewrite H1 by auto. assert (GG : ilst_get i (l ++ [mkAtom i ds]) = Some (mkAtom i ds)).
    { rewrite get_only, only_app. rewrite get_only in G. destruct (only i l); [|discriminate]. cbn. destruct (ident_dec i i); [reflexivity|congruence]. }
    unfold values. rewrite G, GG. repeat split. rewrite others_app. unfold others at 2. cbn [filter at_ident]. destruct (ident_dec i i); [|congruence]. apply app_nil_r.
Qed.
Definition as_stored (i : ident) (ds : list adata) : list adata :=
  if ident_dec i covr_ident then if forallb is_pic ds then map (fun d => match d with APic p => APic (as_other p) | d => d end) ds else ds else ds.
Theorem C129_insert : forall a l, at_data a <> [] -> let i := at_ident a in
  values i (ilst_insert a l) = values i l ++ as_stored i (at_data a) /\ others i (ilst_insert a l) = others i l /\
  (ilst_get i l = None -> ilst_get i (ilst_insert a l) = Some (mkAtom i (as_stored i (at_data a)))).
Proof.
  intros [i ds] l NE. cbn [at_ident at_data] in *. unfold ilst_insert, as_stored. cbn [at_ident at_data]. rewrite ident_eqb_dec.
  assert (G : values i (insert_or_push i ds l) = values i l ++ ds /\ others i (insert_or_push i ds l) = others i l /\
     (ilst_get i l = None -> ilst_get i (insert_or_push i ds l) = Some (mkAtom i ds))).
  { destruct (insert_or_push_spec i ds l) as (A & B & C). repeat split; auto. intro N0. rewrite C. unfold values. now rewrite N0. }
  destruct (ident_dec i covr_ident) as [->|]; [|exact G]. destruct (forallb is_pic ds) eqn:F; [|exact G]. clear G. cbn [andb].
  set (st := fun d => match d with APic p => APic (as_other p) | d => d end). set (ins := fun (l : list atom) d => match d with APic p => insert_picture p l | _ => l end).
  assert (K : forall ds l, forallb is_pic ds = true -> values covr_ident (fold_left ins ds l) = values covr_ident l ++ map st ds /\
    others covr_ident (fold_left ins ds l) = others covr_ident l /\ (ds <> [] -> exists a, ilst_get covr_ident (fold_left ins ds l) = Some a /\ at_ident a = covr_ident)).
  { clear. induction ds as [|d ds IH]; intros l F; cbn [fold_left map]. rewrite app_nil_r. repeat split; congruence.
    cbn [forallb] in F. apply andb_prop in F as [F1 F2]. destruct d; try discriminate. cbn [ins st].
    destruct (IH (insert_picture p l) F2) as (A & B & C). unfold insert_picture in *.
    destruct (insert_or_push_spec covr_ident [APic (as_other p)] l) as (A' & B' & C'). rewrite A, B, A', B', <- app_assoc. repeat split; auto.
    intros _. destruct ds as [|d ds]. cbn [fold_left]. rewrite C'. eexists. split; reflexivity. apply C. discriminate. }
  destruct (K ds l F) as (A & B & C). repeat split; auto. intro N0. destruct (C NE) as (a & GA & IA). rewrite GA. f_equal.
  unfold values in A. rewrite GA, N0 in A. destruct a. cbn in *. now subst.
Qed.
Print Assumptions C129_insert.
Theorem C129_picture : forall p l, ilst_pictures (insert_picture p l) = Some (match ilst_pictures l with Some ps => ps | None => [] end ++ [as_other p]) /\
  others covr_ident (insert_picture p l) = others covr_ident l.
Proof.
  intros. unfold ilst_pictures, insert_picture. destruct (insert_or_push_spec covr_ident [APic (as_other p)] l) as (_ & B & C). rewrite C, B. split; auto. cbn [option_map at_data].
  f_equal. unfold values, data_pictures. assert (FM : forall a b, TagModel.filter_map pic_of (a ++ b) = TagModel.filter_map pic_of a ++ TagModel.filter_map pic_of b).
  { induction a; cbn; intros; auto. rewrite IHa. destruct (pic_of a); auto. }
  rewrite FM. destruct (ilst_get covr_ident l); reflexivity.
Qed.
Print Assumptions C129_picture.
Definition front : picture := mkPic PCoverFront (Some Png) (Some ($"d")) [1; 2].
Example C129_ex : ilst_insert (mkAtom ARTIST [AUtf8 ($"c")]) two_artists =
    [mkAtom ARTIST [AUtf8 ($"a"); AUtf8 ($"c")]; mkAtom ARTIST [AUtf8 ($"b")]; mkAtom TITLE [AUtf8 ($"t")]] /\
  ilst_insert (mkAtom covr_ident [APic front]) [] = [mkAtom covr_ident [APic (mkPic POther (Some Png) (Some ($"d")) [1; 2])]].
Proof. vm_compute. auto. Qed.

(** C130: removing the pictures. *)
Definition all_pictures (l : ilst) : list picture := flat_map (fun a => data_pictures (at_data a)) l.
Definition unmixed (a : atom) : Prop := at_data a <> [] /\ (forallb is_pic (at_data a) = true \/ data_pictures (at_data a) = []).
Theorem C130_remove_pictures_partial : forall l, Forall unmixed l ->
  all_pictures (remove_pictures l) = [] /\ remove_pictures l = filter (fun a => match data_pictures (at_data a) with [] => true | _ => false end) l.
Proof.
  intros l F. assert (E : remove_pictures l = filter (fun a => match data_pictures (at_data a) with [] => true | _ => false end) l).
  { unfold remove_pictures. apply filter_ext_in. intros a A. rewrite Forall_forall in F. destruct (F a A) as [NE [P|P]].
    - destruct (at_data a) as [|d ds]; [congruence|]. cbn [forallb] in P. apply andb_prop in P as [P _]. destruct d; try discriminate. reflexivity.
    - rewrite P. destruct (at_data a) as [|d ds]; [congruence|]. destruct d; try reflexivity. discriminate. }
  split; auto. rewrite E. unfold all_pictures. clear. induction l; cbn; auto. destruct (data_pictures (at_data a)) eqn:D; cbn; auto. now rewrite D.
Qed.
Print Assumptions C130_remove_pictures_partial.
(** An atom with a picture behind a text keeps it; a text behind a picture is removed with it. *)
Theorem C130_remains_refuted : ~ (forall l, Forall (fun a => at_data a <> []) l -> ilst_pictures (remove_pictures l) = None).
Proof. intro H. specialize (H [mkAtom covr_ident [AUtf8 ($"t"); APic front]]). vm_compute in H. assert (X : Some [front] = None) by (apply H; repeat constructor; discriminate). discriminate. Qed.
Print Assumptions C130_remains_refuted.
Theorem C130_text_lost_refuted : ~ (forall l a s, In a l -> In (AUtf8 s) (at_data a) ->
  exists b, In b (remove_pictures l) /\ In (AUtf8 s) (at_data b)).
Proof. intro H. destruct (H [mkAtom TITLE [APic front; AUtf8 ($"t")]] (mkAtom TITLE [APic front; AUtf8 ($"t")]) ($"t")) as (b & B & _). left; auto. cbn; auto. destruct B. Qed.
Print Assumptions C130_text_lost_refuted.
Example C130_ex : remove_pictures [mkAtom TITLE [AUtf8 ($"t")]; mkAtom covr_ident [APic front; APic front]; mkAtom ARTIST [AUtf8 ($"a")]] =
  [mkAtom TITLE [AUtf8 ($"t")]; mkAtom ARTIST [AUtf8 ($"a")]].
Proof. vm_compute. auto. Qed.
