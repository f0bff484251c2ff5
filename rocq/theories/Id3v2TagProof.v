(** Proofs about the accessors of an ID3v2 tag. *)
From Coq Require Import Permutation.
From Verif Require Import BaseLemmas StrLemmas FrameProof2 FrameListProof Frame23Proof ApeProof.
From Verif Require Import Id3v2TagSpec.

Lemma has_name_iff : forall id f, has_name id f = true <-> f_id f = Valid id.
Proof. intros. apply id_eqb_eq. Qed.
Lemma has_name_no : forall id f, has_name id f = false <-> f_id f <> Valid id.
Proof. intros. rewrite <- has_name_iff. destruct (has_name id f); split; congruence. Qed.
Lemma find_filter : forall A (p : A -> bool) l, find p l = hd_error (filter p l).
Proof. induction l as [|x l IH]; auto. cbn. destruct (p x); auto. Qed.
Lemma get_mine : forall id t, fl_get (Valid id) (t_frames t) = hd_error (mine id t).
Proof. intros. apply find_filter. Qed.
Lemma get_text_mine : forall id t, fl_get_text (Valid id) (t_frames t) = match mine id t with FText _ _ s :: _ => Some s | _ => None end.
Proof. intros. unfold fl_get_text. rewrite get_mine. destruct (mine id t) as [|[] l]; reflexivity. Qed.

(** Inserting a text frame. *)
Lemma insert_text_spec : forall id s t, in_names id ONE_PER_TAG = false -> plain_name id t ->
  mine id (tag_insert (text_frame id s) t) = [text_frame id s] /\ others id (tag_insert (text_frame id s) t) = others id t.
Proof.
  intros id s t N P. unfold tag_insert, fl_insert, mine, others. cbn [f_name f_id f_header text_frame new_header fh_id id_str].
  change (f_name (text_frame id s)) with id. rewrite N.
  change (f_id (text_frame id s)) with (Valid id).
  unfold plain_name, mine in P. unfold with_frames. cbn [t_frames].
  pose proof (take_first_spec (fun g => frame_eqb g (text_frame id s)) (t_frames t)) as S.
  assert (EQ : forall g, frame_eqb g (text_frame id s) = true -> exists h e v, g = FText h e v /\ f_id g = Valid id).
  { intros g G. destruct g; try discriminate G. cbn [frame_eqb text_frame new_header fh_id] in G. apply id_eqb_eq in G. eauto. }
  assert (H1 : has_name id (text_frame id s) = true) by (apply has_name_iff; reflexivity).
  destruct (take_first _ _) as [[x|] r].
  - destruct S as (a & b & E & -> & X & Fa). destruct (EQ x X) as (h & e & v & -> & Hx). apply has_name_iff in Hx. rewrite E in *.
    cbn [fst]. rewrite !filter_app in *. cbn [filter] in *. rewrite Hx in *. cbn [negb] in *. rewrite H1. cbn [negb].
    assert (filter (has_name id) a = [] /\ filter (has_name id) b = []) as [Ea Eb].
    { destruct P as [P | (h2 & e2 & s2 & P)].
      - apply app_eq_nil in P as [_ P]. discriminate P.
      - destruct (filter (has_name id) a) as [|y l]; cbn [app] in P. injection P; intros; subst; auto.
        injection P. intros P2 _. apply app_eq_nil in P2 as [_ P2]. discriminate P2. }
    rewrite Ea, Eb. cbn [app]. rewrite app_nil_r. auto.
  - destruct S as [-> F]. cbn [fst]. rewrite !filter_app. cbn [filter]. rewrite H1. cbn [negb]. rewrite app_nil_r. split; auto.
    destruct P as [-> | (h & e & v & P)]; auto. exfalso.
    assert (I : In (FText h e v) (filter (has_name id) (t_frames t))) by (rewrite P; left; auto).
    apply filter_In in I as [I J]. rewrite Forall_forall in F. specialize (F _ I). cbn [frame_eqb text_frame new_header fh_id] in F.
    apply has_name_iff in J. unfold f_id in J. cbn [f_header] in J. rewrite J in F. assert (id_eqb (Valid id) (Valid id) = true) by (now apply id_eqb_eq). congruence.
Qed.
Lemma insert_head : forall f t, same_head t (tag_insert f t).
Proof. intros. split; reflexivity. Qed.
Lemma remove_spec : forall id t, Permutation (t_frames (acc_remove id t)) (others id t) /\ mine id (acc_remove id t) = [].
Proof.
  intros id t. assert (P : Permutation (t_frames (acc_remove id t)) (others id t)).
  { unfold acc_remove, with_frames. cbn [t_frames]. rewrite remove_perm. apply Permutation_refl. }
  split; auto. unfold mine. apply filter_none. apply Forall_forall. intros f I. apply (Permutation_in _ P) in I.
  unfold others in I. apply filter_In in I as [_ I]. now apply negb_true_iff.
Qed.
Lemma shown_plain : forall v s, ~ In 0 s -> shown v s = s.
Proof.
  intros v s H. unfold shown. destruct (is_v4 v); auto. induction s as [|c s IH]; auto. cbn [map].
  destruct (N.eqb_spec c 0) as [-> |]. exfalso. apply H. now left. f_equal. apply IH. intros I. apply H. now right.
Qed.

(** Numbers *)
Lemma split_any_no : forall seps s, Forall (fun c => ~ In c seps) s -> split_any seps s = [s].
Proof.
  induction s as [|c s IH]; intros; auto. apply Forall_cons_iff in H as [H1 H2]. cbn [split_any]. rewrite IH by auto.
  destruct (existsb (N.eqb c) seps) eqn:E; auto. apply existsb_exists in E as (x & I & E). apply N.eqb_eq in E. congruence.
Qed.
Lemma split_any_app : forall seps a c b, Forall (fun c => ~ In c seps) a -> In c seps -> split_any seps (a ++ c :: b) = a :: split_any seps b.
Proof.
  induction a as [|x a IH]; intros c b H I; cbn [app split_any].
  - replace (existsb (N.eqb c) seps) with true; auto. symmetry. apply existsb_exists. exists c. split; auto. apply N.eqb_refl.
  - apply Forall_cons_iff in H as [H1 H2]. rewrite IH by auto.
    destruct (existsb (N.eqb x) seps) eqn:E; auto. apply existsb_exists in E as (y & J & E). apply N.eqb_eq in E. congruence.
Qed.
Lemma to_dec_plain : forall n, Forall (fun c => ~ In c [0; 47]) (to_dec n).
Proof.
  intros. apply Forall_forall. intros c I J. apply (to_dec_no n c); auto. destruct J as [<- |[<- |[]]]; reflexivity.
Qed.
Lemma format_pair : forall n m, (match n with Some n => n <= U32_MAX | None => True end) -> (match m with Some m => m <= U32_MAX | None => True end) ->
  match format_number_pair n m with
  | Some s => let l := TagModel.filter_map (parse_uint U32_MAX) (split_any [0; 47] s) in
      nth_error l 0 = Some (match n with Some n => n | None => 0 end) /\ nth_error l 1 = m
  | None => n = None /\ m = None
  end.
Proof.
  intros [n|] [m|] Hn Hm; cbn [format_number_pair].
  - cbn [app]. rewrite split_any_app by (auto using to_dec_plain; right; left; reflexivity).
    rewrite (split_any_no _ (to_dec m)) by apply to_dec_plain. cbn [TagModel.filter_map]. rewrite !parse_uint_to_dec by auto. auto.
  - rewrite split_any_no by apply to_dec_plain. cbn [TagModel.filter_map]. rewrite parse_uint_to_dec by auto. auto.
  - cbn [app]. rewrite split_any_app by (auto using to_dec_plain; right; left; reflexivity).
    rewrite (split_any_no _ (to_dec m)) by apply to_dec_plain. cbn [TagModel.filter_map]. rewrite !parse_uint_to_dec by (auto; lia). auto.
  - auto.
Qed.
Lemma filter_map_in : forall A B (f : A -> option B) l y, In y (TagModel.filter_map f l) -> exists x, f x = Some y.
Proof. induction l as [|x l IH]; cbn; intros y H. contradiction. destruct (f x) eqn:E; [destruct H as [<- |H]|]; eauto. Qed.
Lemma pair_bound : forall id t n, (acc_number id t = Some n \/ acc_total id t = Some n) -> n <= U32_MAX.
Proof.
  intros id t n. unfold acc_number, acc_total, split_num_pair. destruct (fl_get_text _ _); cbn; [|intros [?|?]; discriminate].
  intros [H|H]; [assert (I := nth_error_In _ 0 H)|assert (I := nth_error_In _ 1 H)]; apply filter_map_in in I as (x & I); eapply parse_uint_bound; eauto.
Qed.

(** The comment *)
Lemma comment_loop_none : forall l, set_comment_loop None l = (filter (fun f => negb (is_plain_comment f)) l, None).
Proof. induction l as [|f l IH]; auto. cbn [set_comment_loop filter]. destruct f; try (rewrite IH; reflexivity). destruct desc; rewrite IH; reflexivity. Qed.
Lemma comment_loop_some : forall s l,
  (Forall (fun f => is_plain_comment f = false) l /\ set_comment_loop (Some s) l = (l, Some s)) \/
  exists a h e lang old b, l = a ++ FComment h e lang [] old :: b /\ Forall (fun f => is_plain_comment f = false) a /\
    set_comment_loop (Some s) l = (a ++ FComment h e lang [] s :: filter (fun f => negb (is_plain_comment f)) b, None).
Proof.
  induction l as [|f l IH]. left. auto.
  assert (K : forall f, is_plain_comment f = false -> set_comment_loop (Some s) (f :: l) = let '(r, v') := set_comment_loop (Some s) l in (f :: r, v')).
  { intros g Hg. cbn [set_comment_loop]. destruct g; auto. destruct desc; auto. discriminate Hg. }
  destruct (is_plain_comment f) eqn:E.
  - right. destruct f; try discriminate E. destruct desc; try discriminate E. exists [], h, e, lang, content, l.
    repeat split; auto. cbn [set_comment_loop app]. now rewrite comment_loop_none.
  - rewrite K by auto. destruct IH as [[F ->]|(a & h & e & lang & old & b & -> & F & ->)].
    + left. auto.
    + right. exists (f :: a), h, e, lang, old, b. auto.
Qed.
Lemma filter_map_app : forall A B (f : A -> option B) a b, TagModel.filter_map f (a ++ b) = TagModel.filter_map f a ++ TagModel.filter_map f b.
Proof. induction a as [|x a IH]; intros; auto. cbn. rewrite IH. destruct (f x); auto. Qed.
Lemma no_comment : forall l, Forall (fun f => is_plain_comment f = false) l -> TagModel.filter_map plain_comment l = [].
Proof.
  induction l as [|f l IH]; intros; auto. apply Forall_cons_iff in H as [H1 H2]. cbn. rewrite IH by auto.
  destruct f; auto. destruct desc; auto. discriminate H1.
Qed.
