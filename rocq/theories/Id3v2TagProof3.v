(** Proofs about the conversion of an ID3v2 tag to a Tag and back: one frame. *)
From Coq Require Import Permutation.
From Verif Require Import BaseLemmas StrLemmas TrimModel TextProof FrameProof1 FrameProof2 FrameListProof Frame23Proof ApeProof TimestampThm PopmThm ItemKeyThm.
From Verif Require Import Id3v2TagProof Id3v2TagProof2.
From Verif Require Import Id3v2TagSpec.

(** *** Names and keys *)
Definition key_facts (id : str) (tg : target) : Prop :=
  exists k, from_key Id3v2 id = Some k /\ target_of k = tg /\ mapped_key k = id /\ tipl_name k = None /\ map_key Id3v2 k = Some id.
Ltac each_name H := unfold MULTI_TEXT, SINGLE_TEXT, MULTI_USER, GAINS, URLS in H; cbn [In] in H; repeat destruct H as [<- | H]; try contradiction.
Lemma multi_text_facts : forall id, In id MULTI_TEXT -> key_facts id ToText /\ number_keys id = None /\ list_eqb id ($"TCON") = false.
Proof. intros id H. each_name H; (split; [eexists; split; [vm_compute; reflexivity|]; repeat split; vm_compute; reflexivity|split; reflexivity]). Qed.
Lemma single_text_facts : forall id, In id SINGLE_TEXT ->
  key_facts id ToOther /\ number_keys id = None /\ list_eqb id ($"TCON") = false /\ lenN id = 4 /\ frame_id_new id = Some (Valid id) /\ starts 84 id = true.
Proof. intros id H. each_name H; (split; [eexists; split; [vm_compute; reflexivity|]; repeat split; vm_compute; reflexivity|repeat split; reflexivity]). Qed.
Lemma multi_user_facts : forall id, In id MULTI_USER -> key_facts id ToUser /\ id <> [].
Proof. intros id H. each_name H; (split; [eexists; split; [vm_compute; reflexivity|]; repeat split; vm_compute; reflexivity|discriminate]). Qed.
Lemma gain_facts : forall id, In id GAINS -> key_facts id ToGain /\ id <> [].
Proof. intros id H. each_name H; (split; [eexists; split; [vm_compute; reflexivity|]; repeat split; vm_compute; reflexivity|discriminate]). Qed.
Lemma url_facts : forall id, In id URLS -> key_facts id ToOther /\ lenN id = 4 /\ frame_id_new id = Some (Valid id) /\ starts 84 id = false /\ starts 87 id = true.
Proof. intros id H. each_name H; (split; [eexists; split; [vm_compute; reflexivity|]; repeat split; vm_compute; reflexivity|repeat split; reflexivity]). Qed.

(** *** Frames of a context *)
Definition free (f : frame) (c : ctx) : Prop :=
  ~ In (identity_of f) (map identity_of (ctx_frames c)) /\ (is_tipl f = true -> c_tipl c = []).
Lemma in_ctx : forall c g, In g (ctx_frames c) <->
  In g (match c_tipl c with [] => [] | l => [tipl_frame l] end) \/ In g (map (fun e => text_frame (fst e) (snd e)) (c_text c)) \/
  In g (map (fun e => user_text_frame (fst e) (snd e)) (c_txxx c)) \/
  In g (map (fun e => comment_frame (fst (fst e)) (snd (fst e)) (snd e)) (c_comm c)) \/
  In g (map (fun e => unsync_frame (fst (fst e)) (snd (fst e)) (snd e)) (c_uslt c)) \/
  In g (opt_list (option_map (text_frame ($"TRCK")) (format_number_pair (c_track c) (c_track_total c)))) \/
  In g (opt_list (option_map (text_frame ($"TPOS")) (format_number_pair (c_disc c) (c_disc_total c)))).
Proof. intros. unfold ctx_frames. rewrite !in_app_iff. tauto. Qed.
Lemma free_not : forall f c g, free f c -> In g (ctx_frames c) -> identity_of g <> identity_of f.
Proof. intros f c g [F _] I E. apply F. rewrite <- E. now apply in_map. Qed.
Lemma free_text : forall id s c, free (text_frame id s) c -> Forall (fun e => list_eqb id (fst e) = false) (c_text c).
Proof.
  intros id s c F. apply Forall_forall. intros [i v] I. cbn [fst]. destruct (list_eqb id i) eqn:E; auto. apply list_eqb_eq in E. subst i. exfalso.
  apply (free_not _ _ (text_frame id v) F); [|reflexivity]. apply in_ctx. right; left. apply in_map_iff. exists (id, v). auto.
Qed.
Lemma free_user : forall id s c, free (user_text_frame id s) c -> Forall (fun e => list_eqb id (fst e) = false) (c_txxx c).
Proof.
  intros id s c F. apply Forall_forall. intros [i v] I. cbn [fst]. destruct (list_eqb id i) eqn:E; auto. apply list_eqb_eq in E. subst i. exfalso.
  apply (free_not _ _ (user_text_frame id v) F); [|reflexivity]. apply in_ctx. right; right; left. apply in_map_iff. exists (id, v). auto.
Qed.
Lemma lang_desc_eq : forall a b, lang_desc_eqb a b = true -> a = b.
Proof. intros [a a'] [b b'] H. unfold lang_desc_eqb in H. cbn in H. apply andb_true_iff in H as [H1 H2]. apply list_eqb_eq in H1, H2. congruence. Qed.
Lemma free_comm : forall lang d s c, free (comment_frame lang d s) c -> Forall (fun e => lang_desc_eqb (lang, d) (fst e) = false) (c_comm c).
Proof.
  intros lang d s c F. apply Forall_forall. intros [i v] I. cbn [fst]. destruct (lang_desc_eqb (lang, d) i) eqn:E; auto. apply lang_desc_eq in E. subst i. exfalso.
  apply (free_not _ _ (comment_frame lang d v) F); [|reflexivity]. apply in_ctx. right; right; right; left. apply in_map_iff. exists ((lang, d), v). auto.
Qed.
Lemma free_uslt : forall lang d s c, free (unsync_frame lang d s) c -> Forall (fun e => lang_desc_eqb (lang, d) (fst e) = false) (c_uslt c).
Proof.
  intros lang d s c F. apply Forall_forall. intros [i v] I. cbn [fst]. destruct (lang_desc_eqb (lang, d) i) eqn:E; auto. apply lang_desc_eq in E. subst i. exfalso.
  apply (free_not _ _ (unsync_frame lang d v) F); [|reflexivity]. apply in_ctx. do 4 right; left. apply in_map_iff. exists ((lang, d), v). auto.
Qed.
Lemma free_track : forall s c, free (text_frame ($"TRCK") s) c -> c_track c = None /\ c_track_total c = None.
Proof.
  intros s c F. destruct (format_number_pair (c_track c) (c_track_total c)) as [v|] eqn:E.
  - exfalso. apply (free_not _ _ (text_frame ($"TRCK") v) F); [|reflexivity]. apply in_ctx. rewrite E. cbn [option_map opt_list In]. tauto.
  - destruct (c_track c), (c_track_total c); cbn in E; try discriminate E. auto.
Qed.
Lemma free_disc : forall s c, free (text_frame ($"TPOS") s) c -> c_disc c = None /\ c_disc_total c = None.
Proof.
  intros s c F. destruct (format_number_pair (c_disc c) (c_disc_total c)) as [v|] eqn:E.
  - exfalso. apply (free_not _ _ (text_frame ($"TPOS") v) F); [|reflexivity]. apply in_ctx. rewrite E. cbn [option_map opt_list In]. tauto.
  - destruct (c_disc c), (c_disc_total c); cbn in E; try discriminate E. auto.
Qed.

Lemma perm_ins : forall A (a b c : list A) x, Permutation (a ++ (b ++ [x]) ++ c) (x :: a ++ b ++ c).
Proof. intros. rewrite <- app_assoc. cbn [app]. rewrite (app_assoc a b (x :: c)), (app_assoc a b c). symmetry. apply Permutation_middle. Qed.
Lemma perm_ins2 : forall A (a a2 b c : list A) x, Permutation (a ++ a2 ++ (b ++ [x]) ++ c) (x :: a ++ a2 ++ b ++ c).
Proof. intros. transitivity ((a ++ a2) ++ (b ++ [x]) ++ c). now rewrite <- !app_assoc. rewrite perm_ins. now rewrite <- !app_assoc. Qed.
Lemma perm_ins3 : forall A (a a2 a3 b c : list A) x, Permutation (a ++ a2 ++ a3 ++ (b ++ [x]) ++ c) (x :: a ++ a2 ++ a3 ++ b ++ c).
Proof. intros. transitivity ((a ++ a2 ++ a3) ++ (b ++ [x]) ++ c). now rewrite <- !app_assoc. rewrite perm_ins. now rewrite <- !app_assoc. Qed.
Lemma perm_ins4 : forall A (a a2 a3 a4 b c : list A) x, Permutation (a ++ a2 ++ a3 ++ a4 ++ (b ++ [x]) ++ c) (x :: a ++ a2 ++ a3 ++ a4 ++ b ++ c).
Proof. intros. transitivity ((a ++ a2 ++ a3 ++ a4) ++ (b ++ [x]) ++ c). now rewrite <- !app_assoc. rewrite perm_ins. now rewrite <- !app_assoc. Qed.
Lemma perm_text : forall c e, Permutation (ctx_frames (set_text c (c_text c ++ [e]))) (text_frame (fst e) (snd e) :: ctx_frames c).
Proof. intros. unfold ctx_frames, set_text. cbn [c_tipl c_text c_txxx c_comm c_uslt c_track c_track_total c_disc c_disc_total]. rewrite map_app. apply perm_ins. Qed.
Lemma perm_txxx : forall c e, Permutation (ctx_frames (set_txxx c (c_txxx c ++ [e]))) (user_text_frame (fst e) (snd e) :: ctx_frames c).
Proof. intros. unfold ctx_frames, set_txxx. cbn [c_tipl c_text c_txxx c_comm c_uslt c_track c_track_total c_disc c_disc_total]. rewrite map_app. apply perm_ins2. Qed.
Lemma perm_comm : forall c e, Permutation (ctx_frames (set_comm c (c_comm c ++ [e]))) (comment_frame (fst (fst e)) (snd (fst e)) (snd e) :: ctx_frames c).
Proof. intros. unfold ctx_frames, set_comm. cbn [c_tipl c_text c_txxx c_comm c_uslt c_track c_track_total c_disc c_disc_total]. rewrite map_app. apply perm_ins3. Qed.
Lemma perm_uslt : forall c e, Permutation (ctx_frames (set_uslt c (c_uslt c ++ [e]))) (unsync_frame (fst (fst e)) (snd (fst e)) (snd e) :: ctx_frames c).
Proof. intros. unfold ctx_frames, set_uslt. cbn [c_tipl c_text c_txxx c_comm c_uslt c_track c_track_total c_disc c_disc_total]. rewrite map_app. apply perm_ins4. Qed.
Lemma perm_tipl : forall c l, c_tipl c = [] -> l <> [] -> ctx_frames (set_tipl c l) = tipl_frame l :: ctx_frames c.
Proof.
  intros c l E N. unfold ctx_frames, set_tipl. cbn [c_tipl c_text c_txxx c_comm c_uslt c_track c_track_total c_disc c_disc_total]. rewrite E.
  destruct l; [congruence|reflexivity].
Qed.

(** *** Small texts *)
Lemma digits_not_white : forall n, Forall (fun c => white c = false) (to_dec n).
Proof.
  intros. destruct (to_dec_spec n) as (F & _). eapply Forall_impl; [|exact F]. cbv beta. intros c H. unfold is_digit in H. unfold white.
  apply andb_true_iff in H as [H1 H2]. apply N.leb_le in H1, H2.
  repeat match goal with |- _ || _ = false => apply orb_false_iff; split end;
  try (apply N.eqb_neq; lia); apply andb_false_iff; first [left; apply N.leb_gt; lia | right; apply N.leb_gt; lia].
Qed.
Lemma pair_number_dec : forall n, n <= U32_MAX -> pair_number (to_dec n) = Some (to_dec n).
Proof.
  intros n H. unfold pair_number. rewrite trim_none by apply digits_not_white. rewrite parse_uint_to_dec by auto. cbn [is_some].
  destruct (to_dec_spec n) as (_ & _ & N & _). destruct (to_dec n); [congruence|reflexivity].
Qed.
Lemma split_two_no : forall seps s, Forall (fun c => ~ In c seps) s -> split_two seps s = (s, None).
Proof.
  induction s as [|c s IH]; intros; auto. apply Forall_cons_iff in H as [H1 H2]. cbn [split_two]. rewrite IH by auto.
  destruct (existsb (N.eqb c) seps) eqn:E; auto. apply existsb_exists in E as (x & I & E). apply N.eqb_eq in E. congruence.
Qed.
Lemma split_two_app : forall seps a c b, Forall (fun c => ~ In c seps) a -> In c seps -> split_two seps (a ++ c :: b) = (a, Some b).
Proof.
  induction a as [|x a IH]; intros c b H I; cbn [app split_two].
  - replace (existsb (N.eqb c) seps) with true; auto. symmetry. apply existsb_exists. exists c. split; auto. apply N.eqb_refl.
  - apply Forall_cons_iff in H as [H1 H2]. rewrite IH by auto.
    destruct (existsb (N.eqb x) seps) eqn:E; auto. apply existsb_exists in E as (y & J & E). apply N.eqb_eq in E. congruence.
Qed.
Lemma split_pair_one : forall n a b, n <= U32_MAX -> split_pair (to_dec n) a b = Some [text_item a (to_dec n)].
Proof. intros. unfold split_pair. rewrite split_two_no by apply to_dec_plain. now rewrite pair_number_dec. Qed.
Lemma split_pair_two : forall n m a b, n <= U32_MAX -> m <= U32_MAX ->
  split_pair (to_dec n ++ $"/" ++ to_dec m) a b = Some [text_item a (to_dec n); text_item b (to_dec m)].
Proof.
  intros. unfold split_pair. change ($"/" ++ to_dec m) with (47 :: to_dec m). rewrite split_two_app by (auto using to_dec_plain; right; left; reflexivity).
  now rewrite !pair_number_dec.
Qed.
Lemma nul_joined_eq : forall l, nul_joined l = joined 0 l.
Proof. induction l as [|s [|s' l] IH]; auto. change (nul_joined (s :: s' :: l)) with (s ++ [0] ++ nul_joined (s' :: l)). now rewrite IH. Qed.
Lemma find_char_no : forall c s, ~ In c s -> find_char c s = None.
Proof.
  induction s as [|x s IH]; intros H; auto. cbn [find_char]. destruct (N.eqb_spec x c) as [-> |]. exfalso. apply H. now left.
  rewrite IH; auto. intros I. apply H. now right.
Qed.
Lemma find_char_app : forall c a b, ~ In c a -> find_char c (a ++ c :: b) = Some (lenN a).
Proof.
  induction a as [|x a IH]; intros b H; cbn [app find_char]. rewrite N.eqb_refl. reflexivity.
  destruct (N.eqb_spec x c) as [-> |]. exfalso. apply H. now left. rewrite IH by (intros I; apply H; now right). rewrite lenN_cons. f_equal; lia.
Qed.
Lemma plain_genre_parse : forall g, plain_genre g -> parse_genre false g = g.
Proof. intros g (L & _). unfold parse_genre. replace (3 <? lenN (utf8_enc g)) with true by (symmetry; apply N.ltb_lt; lia). reflexivity. Qed.
Lemma genres_joined : forall l fuel, l <> [] -> Forall plain_genre l -> (length (joined 0 l) <= fuel)%nat -> genres_iter fuel false (joined 0 l) = l.
Proof.
  induction l as [|g l IH]; intros fuel N F Hf; [congruence|]. apply Forall_cons_iff in F as [G F]. pose proof G as (Lg & Zg & Bg).
  assert (NE : g <> []) by (intros ->; discriminate Lg).
  destruct l as [|g' l].
  - cbn [joined] in *. destruct fuel; [destruct g; [congruence|cbn in Hf; lia]|]. cbn [genres_iter]. destruct g as [|x g]; [congruence|].
    rewrite find_char_no by auto. rewrite plain_genre_parse by auto. replace (starts 40 (x :: g)) with false. now destruct (find_char 41 (x :: g)).
    cbn [starts hd] in *. symmetry. now apply N.eqb_neq.
  - change (joined 0 (g :: g' :: l)) with (g ++ 0 :: joined 0 (g' :: l)) in *. rewrite app_length in Hf. cbn [length] in Hf.
    destruct fuel; [lia|]. remember (g ++ 0 :: joined 0 (g' :: l)) as s. destruct s as [|x s]; [destruct g; discriminate|]. cbn [genres_iter]. rewrite Heqs.
    rewrite find_char_app by auto. rewrite takeN_app by auto. replace (dropN (lenN g + 1) (g ++ 0 :: joined 0 (g' :: l))) with (joined 0 (g' :: l)).
    + rewrite plain_genre_parse by auto. f_equal. apply IH; auto. congruence. lia.
    + change (g ++ 0 :: joined 0 (g' :: l)) with (g ++ [0] ++ joined 0 (g' :: l)). rewrite app_assoc. symmetry. apply dropN_app. rewrite lenN_app. reflexivity.
Qed.
Lemma genres_of : forall l, l <> [] -> Forall plain_genre l -> genres false (nul_joined l) = l.
Proof. intros. rewrite nul_joined_eq. apply genres_joined; auto. Qed.
Lemma value_one : forall s, ~ In 0 s -> values s = [s].
Proof. intros. now apply split_all_no. Qed.
Lemma values_ne : forall s, values s <> [].
Proof. intros. apply split_all_ne. Qed.
Lemma values_joined : forall s, joined 0 (values s) = s.
Proof. intros. apply joined_split. Qed.

(** *** Track and disc *)
Definition set_track c n t := mkCtx (c_tipl c) (c_text c) (c_txxx c) (c_comm c) (c_uslt c) n t (c_disc c) (c_disc_total c).
Definition set_disc c n t := mkCtx (c_tipl c) (c_text c) (c_txxx c) (c_comm c) (c_uslt c) (c_track c) (c_track_total c) n t.
Lemma perm_track : forall c n t s, c_track c = None -> c_track_total c = None -> format_number_pair n t = Some s ->
  Permutation (ctx_frames (set_track c n t)) (text_frame ($"TRCK") s :: ctx_frames c).
Proof.
  intros c n t s E1 E2 F. unfold ctx_frames, set_track. cbn [c_tipl c_text c_txxx c_comm c_uslt c_track c_track_total c_disc c_disc_total].
  rewrite E1, E2, F. cbn [option_map opt_list format_number_pair app]. rewrite !app_assoc. rewrite <- Permutation_middle. reflexivity.
Qed.
Lemma perm_disc : forall c n t s, c_disc c = None -> c_disc_total c = None -> format_number_pair n t = Some s ->
  Permutation (ctx_frames (set_disc c n t)) (text_frame ($"TPOS") s :: ctx_frames c).
Proof.
  intros c n t s E1 E2 F. unfold ctx_frames, set_disc. cbn [c_tipl c_text c_txxx c_comm c_uslt c_track c_track_total c_disc c_disc_total].
  rewrite E1, E2, F. cbn [option_map opt_list format_number_pair app]. rewrite !app_nil_r, !app_assoc. rewrite <- Permutation_cons_append. reflexivity.
Qed.
Lemma step_track : forall custom owned c s, item_to_frame custom owned c (text_item KTrackNumber s) = (set_track c (parse_uint U32_MAX s) (c_track_total c), None).
Proof. intros. destruct c; reflexivity. Qed.
Lemma step_track_total : forall custom owned c s, item_to_frame custom owned c (text_item KTrackTotal s) = (set_track c (c_track c) (parse_uint U32_MAX s), None).
Proof. intros. destruct c; reflexivity. Qed.
Lemma step_disc : forall custom owned c s, item_to_frame custom owned c (text_item KDiscNumber s) = (set_disc c (parse_uint U32_MAX s) (c_disc_total c), None).
Proof. intros. destruct c; reflexivity. Qed.
Lemma step_disc_total : forall custom owned c s, item_to_frame custom owned c (text_item KDiscTotal s) = (set_disc c (c_disc c) (parse_uint U32_MAX s), None).
Proof. intros. destruct c; reflexivity. Qed.

(** *** A rating as text *)
Lemma rating_text : forall custom email p st n, dispatch custom email = Some p -> ~ In 124 email -> n <= U64_MAX ->
  popm_from_str custom (popm_display (mkPopm (nonempty email) p st n)) = Some (mkPopm (nonempty email) p st n).
Proof.
  intros custom email p st n D NB C. unfold popm_from_str.
  assert (E : match pm_email (mkPopm (nonempty email) p st n) with Some e => e | None => [] end = email) by (destruct email; reflexivity).
  rewrite display_split by (rewrite E; auto). rewrite E. cbn [pm_rating pm_count].
  rewrite !parse_uint_to_dec; auto. 2: { destruct st; vm_compute; discriminate. }
  destruct st; cbn [stars N.eqb Pos.eqb]; rewrite D; reflexivity.
Qed.

Lemma step_time : forall custom owned c i s, target_of (it_key i) = ToTime -> item_string owned i = Some s ->
  item_to_frame custom owned c i =
  (c, Some (match ts_from_str (utf8_enc s) with Ok d => time_frame (mapped_key (it_key i)) d | _ => text_frame (mapped_key (it_key i)) s end)).
Proof. intros custom owned c i s T S. destruct c. unfold item_to_frame. rewrite T, S. reflexivity. Qed.
Lemma step_ufid : forall custom owned c i s, target_of (it_key i) = ToUfid -> item_string owned i = Some s ->
  item_to_frame custom owned c i = (c, if is_ascii s then Some (ufid_frame MUSICBRAINZ (utf8_enc s)) else None).
Proof. intros custom owned c i s T S. destruct c. unfold item_to_frame. rewrite T, S. reflexivity. Qed.
Lemma step_popm : forall custom owned c i s, target_of (it_key i) = ToPopm -> item_string owned i = Some s ->
  item_to_frame custom owned c i = (c, option_map popm_frame (popm_from_str custom s)).
Proof. intros custom owned c i s T S. destruct c. unfold item_to_frame. rewrite T, S. reflexivity. Qed.

(** *** Each canonical frame is converted and comes back. *)
Definition is_url (f : frame) : bool := match f with FUrl _ _ => true | _ => false end.
Definition comes_back (custom : provider) (owned : bool) (f : frame) (c : ctx) : Prop :=
  exists its c' d, split_frame custom f = consumed its /\ items_to_frames custom owned c its = (c', d) /\ Permutation (d ++ ctx_frames c') (f :: ctx_frames c).
Lemma step_canonical : forall custom owned c f, canonical custom f -> (owned = true \/ is_url f = false) -> free f c -> comes_back custom owned f c.
Proof.
  intros custom owned c f K O F. unfold comes_back. destruct K.
  - destruct (multi_text_facts id H) as ((k & K1 & K2 & K3 & _) & K4 & K5).
    exists (map (text_item k) (values s)), (set_text c (c_text c ++ [(id, s)])), []. split; [|split].
    + unfold split_frame. change (f_name (text_frame id s)) with id. cbn [text_frame]. rewrite K4, K5. unfold by_key. now rewrite K1.
    + rewrite run_text; auto using values_ne. now rewrite K3, values_joined. rewrite K3. eapply free_text; eauto.
    + apply perm_text.
  - destruct (single_text_facts id H) as ((k & K1 & K2 & K3 & K6 & K7) & K4 & K5 & L & V & T).
    exists [text_item k s], c, [text_frame id s]. split; [|split; [|reflexivity]].
    + unfold split_frame. change (f_name (text_frame id s)) with id. cbn [text_frame]. rewrite K4, K5. unfold by_key. rewrite K1, value_one; auto.
    + cbn [items_to_frames]. rewrite (step_other custom owned c _ s) by (auto; destruct owned; reflexivity). cbn [it_key text_item new_item].
      rewrite K7, L, V, T. reflexivity.
  - exists (map (text_item KGenre) l), (set_text c (c_text c ++ [($"TCON", nul_joined l)])), []. split; [|split].
    + unfold split_frame. change (f_name (text_frame ($"TCON") (nul_joined l))) with ($"TCON"). cbn [text_frame].
      change (number_keys ($"TCON")) with (@None (item_key * item_key)). cbv iota. rewrite list_eqb_refl. now rewrite genres_of.
    + rewrite run_text; auto. now rewrite nul_joined_eq. change (mapped_key KGenre) with ($"TCON"). eapply free_text; eauto.
    + apply perm_text.
  - destruct H as [<- |[<- |[]]].
    + destruct (free_track _ _ F) as [E1 E2]. exists [text_item KTrackNumber (to_dec n)], (set_track c (Some n) None), []. split; [|split].
      * unfold split_frame. change (f_name (text_frame ($"TRCK") (to_dec n))) with ($"TRCK"). cbn [text_frame].
        change (number_keys ($"TRCK")) with (Some (KTrackNumber, KTrackTotal)). cbv iota. now rewrite split_pair_one.
      * cbn [items_to_frames]. rewrite step_track, parse_uint_to_dec, E2 by auto. reflexivity.
      * now apply perm_track.
    + destruct (free_disc _ _ F) as [E1 E2]. exists [text_item KDiscNumber (to_dec n)], (set_disc c (Some n) None), []. split; [|split].
      * unfold split_frame. change (f_name (text_frame ($"TPOS") (to_dec n))) with ($"TPOS"). cbn [text_frame].
        change (number_keys ($"TPOS")) with (Some (KDiscNumber, KDiscTotal)). cbv iota. now rewrite split_pair_one.
      * cbn [items_to_frames]. rewrite step_disc, parse_uint_to_dec, E2 by auto. reflexivity.
      * now apply perm_disc.
  - destruct H as [<- |[<- |[]]].
    + destruct (free_track _ _ F) as [E1 E2]. exists [text_item KTrackNumber (to_dec n); text_item KTrackTotal (to_dec m)], (set_track c (Some n) (Some m)), []. split; [|split].
      * unfold split_frame. change (f_name (text_frame ($"TRCK") (to_dec n ++ $"/" ++ to_dec m))) with ($"TRCK"). cbn [text_frame].
        change (number_keys ($"TRCK")) with (Some (KTrackNumber, KTrackTotal)). cbv iota. now rewrite split_pair_two.
      * cbn [items_to_frames]. rewrite step_track, step_track_total, !parse_uint_to_dec by auto. reflexivity.
      * now apply perm_track.
    + destruct (free_disc _ _ F) as [E1 E2]. exists [text_item KDiscNumber (to_dec n); text_item KDiscTotal (to_dec m)], (set_disc c (Some n) (Some m)), []. split; [|split].
      * unfold split_frame. change (f_name (text_frame ($"TPOS") (to_dec n ++ $"/" ++ to_dec m))) with ($"TPOS"). cbn [text_frame].
        change (number_keys ($"TPOS")) with (Some (KDiscNumber, KDiscTotal)). cbv iota. now rewrite split_pair_two.
      * cbn [items_to_frames]. rewrite step_disc, step_disc_total, !parse_uint_to_dec by auto. reflexivity.
      * now apply perm_disc.
  - destruct b; eexists _, c, _; (split; [reflexivity|split; [cbn [items_to_frames map]; destruct c; reflexivity|reflexivity]]).
  - assert (X : exists k, from_key Id3v2 id = Some k /\ target_of k = ToTime /\ mapped_key k = id).
    { destruct H as [<- |[<- |[]]]; eexists; (split; [vm_compute; reflexivity|split; reflexivity]). }
    destruct X as (k & K1 & K2 & K3). exists [text_item k (ts_display d)], c, [time_frame id d]. split; [|split; [|reflexivity]].
    + unfold split_frame. change (f_name (time_frame id d)) with id. cbn [time_frame]. rewrite K1, H0. reflexivity.
    + cbn [items_to_frames]. assert (S : item_to_frame custom owned c (text_item k (ts_display d)) = (c, Some (time_frame id d))).
      { rewrite (step_time custom owned c _ (ts_display d)) by (auto; destruct owned; reflexivity). cbn [it_key text_item new_item].
        rewrite K3. rewrite utf8_ascii'. rewrite C18_from_str by auto. reflexivity.
        eapply Forall_impl; [|apply FrameProof1.display_ascii; auto]. cbv beta. intros; lia. }
      rewrite S. reflexivity.
  - destruct (multi_user_facts d H) as ((k & K1 & K2 & K3 & _) & NE).
    exists (map (text_item k) (values s)), (set_txxx c (c_txxx c ++ [(d, s)])), []. split; [|split].
    + unfold split_frame. cbn [user_text_frame]. destruct d; [congruence|]. unfold by_key. now rewrite K1.
    + rewrite run_user; auto using values_ne. now rewrite K3, values_joined. rewrite K3. eapply free_user; eauto.
    + apply perm_txxx.
  - destruct (gain_facts d H) as ((k & K1 & K2 & K3 & _) & NE).
    exists [text_item k s], (set_txxx c (c_txxx c ++ [(d, s)])), []. split; [|split].
    + unfold split_frame. cbn [user_text_frame]. destruct d; [congruence|]. unfold by_key. rewrite K1, value_one; auto.
    + cbn [items_to_frames]. rewrite (step_gain custom owned c _ s) by (auto; destruct owned; reflexivity). cbn [it_key text_item new_item].
      rewrite put_new, K3. reflexivity. rewrite K3. eapply free_user; eauto.
    + apply perm_txxx.
  - assert (X : n = 0 \/ n = 1 \/ n = 2) by lia.
    destruct X as [-> |[-> | ->]]; eexists _, c, _; (split; [vm_compute; reflexivity|split; [cbn [items_to_frames map]; destruct c; reflexivity|reflexivity]]).
  - exists (lang_items KComment lang d (values s)), (set_comm c (c_comm c ++ [((lang, d), s)])), []. split; [reflexivity|split].
    + rewrite run_comm. now rewrite values_joined. apply values_ne. destruct H; auto. right. exists s. now apply value_one. eapply free_comm; eauto.
    + apply perm_comm.
  - exists (lang_items KUnsyncLyrics lang d (values s)), (set_uslt c (c_uslt c ++ [((lang, d), s)])), []. split; [reflexivity|split].
    + rewrite run_uslt. now rewrite values_joined. apply values_ne. destruct H; auto. right. exists s. now apply value_one. eapply free_uslt; eauto.
    + apply perm_uslt.
  - destruct O as [-> | O]; [|discriminate O]. destruct (url_facts id H) as ((k & K1 & K2 & K3 & K6 & K7) & L & V & T & W).
    exists [new_item k (VLocator s)], c, [url_frame id s]. split; [|split; [|reflexivity]].
    + unfold split_frame. change (f_name (url_frame id s)) with id. cbn [url_frame]. unfold by_key. now rewrite K1.
    + cbn [items_to_frames]. rewrite (step_other custom true c _ s) by (auto; reflexivity). cbn [it_key new_item]. rewrite K7, L, V, T, W. reflexivity.
  - assert (D : split_frame custom (ufid_frame MUSICBRAINZ s) = consumed [text_item KMusicBrainzRecordingId s]).
    { unfold split_frame. cbn [ufid_frame]. rewrite list_eqb_refl. unfold decode_text, decode_raw.
      assert (E : latin1_decode s = s) by (apply trim_id; eapply Forall_impl; [|exact H]; cbv beta; intros; lia).
      destruct s; [reflexivity|]. cbn [bind]. rewrite E. reflexivity. }
    exists [text_item KMusicBrainzRecordingId s], c, [ufid_frame MUSICBRAINZ s]. split; [exact D|split; [|reflexivity]].
    cbn [items_to_frames]. assert (S : item_to_frame custom owned c (text_item KMusicBrainzRecordingId s) = (c, Some (ufid_frame MUSICBRAINZ s))).
    { rewrite (step_ufid custom owned c _ s) by (auto; destruct owned; reflexivity).
      replace (is_ascii s) with true. rewrite utf8_ascii'; auto. eapply Forall_impl; [|exact H]. cbv beta. intros; lia.
      symmetry. unfold is_ascii. apply forallb_forall. intros x I. rewrite Forall_forall in H. apply H in I. apply N.ltb_lt. lia. }
    rewrite S. reflexivity.
  - exists [text_item KPopularimeter (popm_display (mkPopm (nonempty email) p st n))], c, [FPopm (new_header ($"POPM")) email (rate p Id3v2 st) n].
    split; [|split; [|reflexivity]].
    + unfold split_frame, popm_mapped. rewrite H, H0. reflexivity.
    + cbn [items_to_frames].
      assert (S : item_to_frame custom owned c (text_item KPopularimeter (popm_display (mkPopm (nonempty email) p st n))) = (c, Some (FPopm (new_header ($"POPM")) email (rate p Id3v2 st) n))).
      { rewrite (step_popm custom owned c _ (popm_display (mkPopm (nonempty email) p st n))) by (auto; destruct owned; reflexivity).
        rewrite rating_text by auto. cbn [option_map]. unfold popm_frame, mapped_value. cbn [pm_email pm_provider pm_rating pm_count]. destruct email; reflexivity. }
      rewrite S. reflexivity.
  - destruct F as [_ F]. specialize (F eq_refl). exists (TagModel.filter_map (fun p => option_map (fun k => text_item k (snd p)) (tipl_key (fst p))) l), (set_tipl c l), [].
    split; [|split].
    + unfold split_frame. change (f_name (tipl_frame l)) with ($"TIPL"). cbn [tipl_frame]. rewrite list_eqb_refl.
      rewrite filter_none. reflexivity. eapply Forall_impl; [|exact H0]. cbv beta. intros [n s] I. cbn [fst] in *. unfold ROLES in I. cbn [In] in I.
      repeat destruct I as [<- | I]; try reflexivity. contradiction.
    + rewrite run_tipl by auto. rewrite F. reflexivity.
    + cbn [app]. rewrite perm_tipl; auto.
Qed.
