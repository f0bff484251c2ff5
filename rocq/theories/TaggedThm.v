(** Theorems about tagged files: the collection of tags, saving, removal. *)
From Verif Require Import BaseLemmas FileModel ProbeProof ProbeThm TaggedModel.

Lemma tt_iff : forall a b, tt_eqb a b = true <-> a = b.
Proof. intros a b. split; [destruct a, b; cbn; congruence|intros ->; now destruct b]. Qed.
Lemma tt_refl : forall a, tt_eqb a a = true.
Proof. now intros []. Qed.
Lemma tt_neq : forall a b, a <> b -> tt_eqb a b = false.
Proof. intros a b H. destruct (tt_eqb a b) eqn:E; auto. apply tt_iff in E. contradiction. Qed.

Section Thm.
Context {C T : Type}.
Implicit Types (t : tag C) (x : tagged C).

(** ** C206: a tagged file is a map from types of tags to tags, with the types that its format can read. *)
Definition wf (g : registry) x : Prop := NoDup (map t_type (tf_tags x)) /\ Forall (fun t => exists s, tag_support g (tf_type x) (t_type t) = Ok s /\ s <> Unsupported) (tf_tags x).
Lemma drop_first_spec : forall k (l : list (tag C)), NoDup (map t_type l) -> drop_first k l = (find (fun t => tt_eqb (t_type t) k) l, filter (fun t => negb (tt_eqb (t_type t) k)) l).
Proof.
  intros k l. induction l as [|t l IH]; intros ND; [reflexivity|]. cbn [map] in ND. inversion ND as [|? ? NI ND']; subst. cbn [drop_first find filter]. destruct (tt_eqb (t_type t) k) eqn:E; cbn [negb].
  - apply tt_iff in E. subst k. f_equal. clear IH ND ND'. induction l as [|u l IH]; [reflexivity|]. cbn [filter]. rewrite tt_neq; [|intros X; apply NI; cbn [map]; left; exact X]. cbn [negb]. rewrite <- IH; auto. intros I. apply NI. now right.
  - rewrite IH by auto. reflexivity.
Qed.
Lemma find_filter : forall k k' (l : list (tag C)), find (fun t => tt_eqb (t_type t) k') (filter (fun t => negb (tt_eqb (t_type t) k)) l) = if tt_eqb k k' then None else find (fun t => tt_eqb (t_type t) k') l.
Proof.
  intros k k' l. induction l as [|t l IH]; [now destruct (tt_eqb k k')|]. cbn [filter find]. destruct (tt_eqb (t_type t) k) eqn:E; cbn [negb].
  - apply tt_iff in E. subst k. rewrite IH. now destruct (tt_eqb (t_type t) k').
  - cbn [find]. destruct (tt_eqb (t_type t) k') eqn:E'; [|exact IH]. apply tt_iff in E'. subst k'. rewrite tt_neq; auto. intros X. rewrite X, tt_refl in E. discriminate.
Qed.
Lemma find_app : forall (p : tag C -> bool) a b, find p (a ++ b) = match find p a with Some y => Some y | None => find p b end.
Proof. intros p a b. induction a as [|y a IH]; [reflexivity|]. cbn [app find]. now destruct (p y). Qed.
Lemma map_filter_nodup : forall (p : tag C -> bool) l, NoDup (map t_type l) -> NoDup (map t_type (filter p l)).
Proof.
  intros p l. induction l as [|t l IH]; intros ND; [constructor|]. inversion ND as [|? ? NI ND']; subst. cbn [filter]. destruct (p t); auto. cbn [map]. constructor; auto. intros I. apply NI. apply in_map_iff in I as (u & <- & I). apply filter_In in I as [I _]. now apply in_map.
Qed.
Lemma support_ok : forall g f k s, tag_support g f k = Ok s -> support_of g f k = Ok s.
Proof. intros g f k s H. unfold support_of. now rewrite H. Qed.
Theorem C206_remove : forall g k x, wf g x -> exists x', remove_tag k x = (find_tag k x, x') /\ wf g x' /\ tf_type x' = tf_type x /\ find_tag k x' = None /\ forall k', k' <> k -> find_tag k' x' = find_tag k' x.
Proof.
  intros g k x [ND RD]. unfold remove_tag. rewrite drop_first_spec by auto. eexists. split; [reflexivity|]. unfold wf, find_tag. cbn [tf_type tf_tags]. repeat split.
  - now apply map_filter_nodup.
  - rewrite Forall_forall in *. intros u I. apply filter_In in I as [I _]. auto.
  - rewrite find_filter, tt_refl. reflexivity.
  - intros k' NE. rewrite find_filter, tt_neq; auto.
Qed.
Theorem C206_insert : forall g t x s, wf g x -> tag_support g (tf_type x) (t_type t) = Ok s ->
  (s = Unsupported -> insert_tag g t x = Ok (None, x)) /\
  (s <> Unsupported -> exists x', insert_tag g t x = Ok (find_tag (t_type t) x, x') /\ wf g x' /\ tf_type x' = tf_type x /\ find_tag (t_type t) x' = Some t /\ forall k, k <> t_type t -> find_tag k x' = find_tag k x).
Proof.
  intros g t x s [ND RD] S. unfold insert_tag. rewrite (support_ok _ _ _ _ S). cbn [bind]. split.
  - now intros ->.
  - intros NU. replace (is_readable s) with true by (now destruct s). unfold remove_tag. rewrite drop_first_spec by auto. cbn [tf_type tf_tags]. eexists. split; [reflexivity|]. unfold wf, find_tag. cbn [tf_type tf_tags]. repeat split.
    + rewrite map_app. cbn [map]. set (l := filter _ (tf_tags x)). assert (N1 : NoDup (map t_type l)) by now apply map_filter_nodup. assert (N2 : ~ In (t_type t) (map t_type l)).
      { intros I. apply in_map_iff in I as (u & E & I). apply filter_In in I as [_ I]. rewrite E, tt_refl in I. discriminate. }
      apply NoDup_rev in N1. rewrite <- (rev_involutive (map t_type l ++ [t_type t])). apply NoDup_rev. rewrite rev_app_distr. cbn [rev app]. constructor; auto. now rewrite <- in_rev.
    + apply Forall_app. split; [|repeat constructor; eauto]. rewrite Forall_forall in *. intros u I. apply filter_In in I as [I _]. auto.
    + rewrite find_app, find_filter, tt_refl. cbn [find]. now rewrite tt_refl.
    + intros k NE. rewrite find_app, find_filter, tt_neq by auto. destruct (find _ (tf_tags x)); auto. cbn [find]. now rewrite tt_neq by auto.
Qed.
Lemma retain_spec : forall g f (l : list (tag C)), builtin f -> retain_readable g f l = Ok (filter (fun t => match tag_support g f (t_type t) with Ok s => is_readable s | _ => false end) l).
Proof.
  intros g f l B. induction l as [|t l IH]; [reflexivity|]. cbn [retain_readable filter]. assert (S : exists s, tag_support g f (t_type t) = Ok s). { destruct f; try destruct B; unfold tag_support; destruct (supported_formats _); eauto. }
  destruct S as (s & S). rewrite (support_ok _ _ _ _ S), S. cbn [bind]. rewrite IH. reflexivity.
Qed.
Theorem C206_change_type : forall g f x, builtin f -> NoDup (map t_type (tf_tags x)) -> exists x', change_file_type g f x = Ok x' /\ tf_type x' = f /\ wf g x' /\
  forall k s, tag_support g f k = Ok s -> find_tag k x' = match s with Unsupported => None | _ => find_tag k x end.
Proof.
  intros g f x B ND. unfold change_file_type. rewrite retain_spec by auto. cbn [bind]. eexists. split; [reflexivity|]. unfold wf, find_tag. cbn [tf_type tf_tags]. repeat split.
  - now apply map_filter_nodup.
  - rewrite Forall_forall. intros u I. apply filter_In in I as [_ I]. destruct (tag_support g f (t_type u)) as [s|?|]; [|discriminate|discriminate]. exists s. split; auto. now intros ->.
  - intros k s S. clear ND. induction (tf_tags x) as [|u l IH]; [now destruct s|]. cbn [filter find]. destruct (tt_eqb (t_type u) k) eqn:E.
    + apply tt_iff in E. rewrite E, S. destruct s; cbn [is_readable find]; rewrite ?E, ?tt_refl; auto.
    + destruct (match tag_support g f (t_type u) with Ok s0 => is_readable s0 | _ => false end); [|exact IH]. cbn [find]. rewrite E. exact IH.
Qed.
(** Changes through [tag_mut] that keep the type of the tag *)
Theorem C206_change : forall g k h x, (forall t, t_type (h t) = t_type t) -> wf g x ->
  wf g (change_tag k h x) /\ find_tag k (change_tag k h x) = option_map h (find_tag k x) /\ forall k', k' <> k -> find_tag k' (change_tag k h x) = find_tag k' x.
Proof.
  intros g k h x H [ND RD]. unfold wf, find_tag, change_tag. cbn [tf_type tf_tags].
  assert (M : map t_type (change_first k h (tf_tags x)) = map t_type (tf_tags x)). { clear ND RD. induction (tf_tags x) as [|u l IH]; [reflexivity|]. cbn [change_first map]. destruct (tt_eqb (t_type u) k); cbn [map]; [now rewrite H|now rewrite IH]. }
  repeat split.
  - now rewrite M.
  - clear ND M. induction RD as [|u l R RD IH]; [constructor|]. cbn [change_first]. destruct (tt_eqb (t_type u) k); constructor; auto. now rewrite H.
  - clear ND RD M. induction (tf_tags x) as [|u l IH]; [reflexivity|]. cbn [change_first find]. destruct (tt_eqb (t_type u) k) eqn:E; cbn [find]; [now rewrite H, E|now rewrite E].
  - intros k' NE. clear ND RD M. induction (tf_tags x) as [|u l IH]; [reflexivity|]. cbn [change_first find]. destruct (tt_eqb (t_type u) k) eqn:E; cbn [find].
    + apply tt_iff in E. rewrite H, E. now rewrite (tt_neq k k') by auto.
    + now rewrite IH.
Qed.
Theorem C206_clear : forall g x k, wf g (clear_tags x) /\ find_tag k (clear_tags x) = None.
Proof. intros g x k. repeat split; constructor. Qed.
(** Any sequence of these *)
Inductive op := OInsert (t : tag C) | ORemove (k : tag_type) | OClear | OType (f : ftype) | OChange (k : tag_type) (h : tag C -> tag C).
Definition op_ok (o : op) : Prop := match o with OType f => builtin f | OChange _ h => forall t, t_type (h t) = t_type t | _ => True end.
Definition step (g : registry) (o : op) x : res werr (tagged C) :=
  match o with
  | OInsert t => let? (_, x) := insert_tag g t x in Ok x
  | ORemove k => Ok (snd (remove_tag k x))
  | OClear => Ok (clear_tags x)
  | OType f => change_file_type g f x
  | OChange k h => Ok (change_tag k h x)
  end.
Fixpoint steps (g : registry) (l : list op) x : res werr (tagged C) := match l with [] => Ok x | o :: l => let? x := step g o x in steps g l x end.
Lemma builtin_support : forall g f k, builtin f -> exists s, tag_support g f k = Ok s.
Proof. intros g f k B. destruct f; try destruct B; unfold tag_support; destruct (supported_formats _); eauto. Qed.
Theorem C206_histories : forall g ops x, Forall op_ok ops -> wf g x -> builtin (tf_type x) -> exists x', steps g ops x = Ok x' /\ wf g x'.
Proof.
  intros g ops. induction ops as [|o ops IH]; intros x OK W B; [exists x; auto|]. apply Forall_cons_iff in OK as [O OK]. cbn [steps].
  assert (ST : exists x', step g o x = Ok x' /\ wf g x' /\ builtin (tf_type x')).
  { destruct o as [t|k| |f|k h]; cbn [step].
    - destruct (builtin_support g (tf_type x) (t_type t) B) as (s & S). destruct (C206_insert g t x s W S) as [U R]. destruct s; [rewrite U by auto; cbn [bind]; eauto|..]; destruct R as (x' & -> & W' & TY & _); try discriminate; cbn [bind]; exists x'; rewrite TY; auto.
    - destruct (C206_remove g k x W) as (x' & -> & W' & TY & _). cbn [snd]. exists x'. rewrite TY. auto.
    - exists (clear_tags x). split; [reflexivity|]. split; [apply (C206_clear g x Ape)|exact B].
    - destruct (C206_change_type g f x O (proj1 W)) as (x' & -> & TY & W' & _). exists x'. rewrite TY. auto.
    - exists (change_tag k h x). split; [reflexivity|]. split; [apply (C206_change g k h x O W)|exact B]. }
  destruct ST as (x' & -> & W' & B'). cbn [bind]. now apply IH.
Qed.
End Thm.
(** A tag that is given another type in place may double another one; then an inserted tag is not the one that is found. *)
Theorem C206_remap_refuted : exists (x : tagged unit) (n : tag unit), wf no_resolvers x /\
  let x1 := change_tag Id3v1 (re_map Id3v2) x in map t_type (tf_tags x1) = [Id3v2; Id3v2] /\
  exists x2, insert_tag no_resolvers n x1 = Ok (Some (mkTag Id3v2 [] [] None), x2) /\ find_tag (t_type n) x2 <> Some n.
Proof.
  exists (mkTf FMpeg [tag_new Id3v2; mkTag Id3v1 [] [new_item KTrackTitle (VText ($"old"))] None]), (mkTag Id3v2 [] [new_item KTrackTitle (VText ($"new"))] None). split.
  - split; [repeat constructor; cbn; intuition discriminate|]. repeat constructor; eexists; split; try reflexivity; discriminate.
  - split; [reflexivity|]. eexists. split; [reflexivity|]. vm_compute. discriminate.
Qed.
Example C206_example : let x : tagged unit := mkTf FMpeg [tag_new Id3v2] in wf no_resolvers x /\
  insert_tag no_resolvers (tag_new Ape) x = Ok (None, mkTf FMpeg [tag_new Id3v2; tag_new Ape]) /\ insert_tag no_resolvers (tag_new Mp4Ilst) x = Ok (None, x) /\
  change_file_type no_resolvers FWavPack (mkTf FMpeg [tag_new Id3v2; tag_new Ape]) = Ok (mkTf FWavPack [@tag_new unit Ape]).
Proof. split; [|repeat split]. split; [repeat constructor; cbn; intuition discriminate|]. repeat constructor; eexists; split; try reflexivity; discriminate. Qed.

(** ** C207: a tagged file is saved by writing, in their order, its tags of the types that its format can write. *)
Section Save.
Context {C T : Type} (run : ftype -> act C T -> bytes -> res werr (list fop)).
Implicit Types (t : tag C) (x : tagged C).
Definition done f (a : act C T) (d d' : bytes) : Prop := exists log, run f a d = Ok log /\ d' = apply_log d log.
(** The writers leave a file of the same type *)
Definition kept_type (g : registry) f : Prop := forall a d d', format_of g d = Ok f -> done f a d d' -> format_of g d' = Ok f.
Inductive written f : list (tag C) -> bytes -> bytes -> Prop :=
| W_nil : forall d, written f [] d d
| W_skip : forall t l d d', ~ In (t_type t, ReadWrite) (documented f) -> written f l d d' -> written f (t :: l) d d'
| W_write : forall t l d d1 d', In (t_type t, ReadWrite) (documented f) -> done f (Write (t_type t) (Generic t)) d d1 -> written f l d1 d' -> written f (t :: l) d d'.
Lemma rw_iff : forall g f k, builtin f -> (In (k, ReadWrite) (documented f) <-> tag_support g f k = Ok ReadWrite).
Proof. intros g f k B. rewrite C204_support by auto. split; [auto|intros [H|[H _]]; [auto|discriminate]]. Qed.
Lemma perform_iff : forall f a d d', perform run f a d = Ok d' <-> done f a d d'.
Proof. intros f a d d'. unfold perform, done. destruct (run f a d) as [log|?|]; cbn [bind]; split; try discriminate; [intros [= <-]; eauto|intros (? & [= <-] & ->); auto|intros (? & [=] & _)..]. Qed.
Lemma write_rw : forall g f t, builtin f -> tag_support g f (t_type t) = Ok ReadWrite -> write_tag (T := T) f t = Ok (Write (t_type t) (Generic t)).
Proof. intros g f t B S. unfold write_tag, generated_write, flac_write. destruct f; try destruct B; destruct (t_type t); try discriminate S; reflexivity. Qed.
Lemma save_rw : forall g f t d, builtin f -> format_of g d = Ok f -> tag_support g f (t_type t) = Ok ReadWrite -> tag_save run g t d = perform run f (Write (t_type t) (Generic t)) d.
Proof. intros g f t d B F S. unfold tag_save, save_to. rewrite F. cbn [bind]. rewrite (support_ok _ _ _ _ S). cbn [bind is_writable negb andb]. rewrite (write_rw _ _ _ B S). reflexivity. Qed.
Theorem C207_saved : forall g x d d', builtin (tf_type x) -> kept_type g (tf_type x) -> format_of g d = Ok (tf_type x) ->
  (tagged_save run g x d = (Ok tt, d') <-> written (tf_type x) (tf_tags x) d d').
Proof.
  intros g x d d' B K. unfold tagged_save. revert d. induction (tf_tags x) as [|t l IH]; intros d F; cbn [save_tags].
  - split; [intros [= ->]; constructor|intros H; now inversion H].
  - destruct (builtin_support g (tf_type x) (t_type t) B) as (s & S). rewrite (support_ok _ _ _ _ S). destruct (is_writable s) eqn:W.
    + assert (s = ReadWrite) by (destruct s; try discriminate W; reflexivity). subst s. rewrite (save_rw _ _ _ _ B F S). split.
      * destruct (perform run (tf_type x) _ d) as [d1|?|] eqn:P; try discriminate. intros H. apply perform_iff in P. eapply W_write; [apply (rw_iff g); auto|exact P|]. apply IH; auto. eapply K; eauto.
      * intros H. inversion H as [|? ? ? ? N|? ? ? d1 ? I D W1]; subst; [exfalso; apply N; apply (rw_iff g); auto|]. rewrite (proj2 (perform_iff _ _ _ _) D). apply IH; auto. eapply K; eauto.
    + assert (N : ~ In (t_type t, ReadWrite) (documented (tf_type x))). { intros I. apply (rw_iff g) in I; auto. rewrite S in I. injection I as ->. discriminate. }
      split; [intros H; apply W_skip; auto; now apply IH|]. intros H. inversion H; subst; [now apply IH|contradiction].
Qed.
(** Read-only tags that were read do not matter; without a failing writer saving never fails. *)
Theorem C207_total : forall g x d, builtin (tf_type x) -> kept_type g (tf_type x) -> format_of g d = Ok (tf_type x) -> (forall a d0, exists log, run (tf_type x) a d0 = Ok log) ->
  exists d', tagged_save run g x d = (Ok tt, d').
Proof.
  intros g x d B K F TOT. unfold tagged_save. revert d F. induction (tf_tags x) as [|t l IH]; intros d F; cbn [save_tags]; [eauto|].
  destruct (builtin_support g (tf_type x) (t_type t) B) as (s & S). rewrite (support_ok _ _ _ _ S). destruct s; cbn [is_writable]; auto. rewrite (save_rw _ _ _ _ B F S).
  destruct (TOT (Write (t_type t) (Generic t)) d) as (log & R). assert (D : done (tf_type x) (Write (t_type t) (Generic t)) d (apply_log d log)) by (exists log; auto).
  rewrite (proj2 (perform_iff _ _ _ _) D). apply IH. eapply K; eauto.
Qed.
(** The tags of a format without writable ones are not touched; an emptied collection writes nothing. *)
Theorem C207_cleared : forall g x d, tagged_save run g (clear_tags x) d = (Ok tt, d).
Proof. reflexivity. Qed.
End Save.
Definition at_end {C T} (f : ftype) (a : act C T) (d : bytes) : res werr (list fop) := match a with Write Id3v2 _ => Ok [OpWrite (lenN d) ($"v2")] | Write _ _ => Ok [OpWrite (lenN d) ($"x")] | Strip => Err (WWriter 0) end.
Definition a_wav : bytes := $"RIFF" ++ [4; 0; 0; 0] ++ $"WAVE".
Definition titled {C} (k : tag_type) : tag C := mkTag k [] [new_item KTrackTitle (VText ($"a"))] None.
(** Saving is not all or nothing: the type is found anew for every tag, and the first tags are written before a later one fails. *)
Theorem C207_atomic_refuted : exists (x : tagged unit) d d', tagged_save (T := unit) at_end no_resolvers x d = (Err WUnsupported, d') /\ d' = d ++ $"v2".
Proof. exists (mkTf FMpeg [titled Id3v2; titled Ape]), a_wav, (a_wav ++ $"v2"). split; vm_compute; reflexivity. Qed.
Example C207_example : tagged_save (T := unit) at_end no_resolvers (mkTf FFlac [titled Id3v2; @titled unit VorbisComments]) ($"fLaC") = (Ok tt, $"fLaCx") /\
  written (T := unit) at_end FFlac [titled Id3v2; @titled unit VorbisComments] ($"fLaC") ($"fLaCx").
Proof. split; [vm_compute; reflexivity|]. apply W_skip; [cbn; intuition discriminate|]. eapply W_write; [cbn; auto|eexists; split; reflexivity|]. constructor. Qed.

(** ** C208: a tag is written only into a file of a format that supports its type. *)
Section One.
Context {C T : Type} (run : ftype -> act C T -> bytes -> res werr (list fop)).
Implicit Types (t : tag C).
Theorem C208_supported : forall g t d f, format_of g d = Ok f -> In (t_type t, ReadWrite) (documented f) -> tag_save run g t d = perform run f (Write (t_type t) (Generic t)) d.
Proof. intros g t d f F I. assert (B : builtin f) by (destruct f; try exact Logic.I; destruct I). apply save_rw; auto. now apply rw_iff. Qed.
Theorem C208_unsupported : forall g t d f, format_of g d = Ok f -> builtin f -> ~ In (t_type t, ReadWrite) (documented f) -> tag_is_empty t = false -> tag_save run g t d = Err WUnsupported.
Proof.
  intros g t d f F B N E. unfold tag_save, save_to. rewrite F, E. cbn [bind]. destruct (builtin_support g f (t_type t) B) as (s & S). rewrite (support_ok _ _ _ _ S). cbn [bind].
  destruct s; try reflexivity. exfalso. apply N. now apply (rw_iff g).
Qed.
Theorem C208_unknown : forall g t d, (forall f, format_of g d <> Ok f) -> forall d', tag_save run g t d <> Ok d'.
Proof. intros g t d N d'. unfold tag_save, save_to. destruct (format_of g d) as [f|?|]; [now destruct (N f)|discriminate|discriminate]. Qed.
(** Empty tags that the format cannot write: *)
Theorem C208_empty : forall g t d f, format_of g d = Ok f -> builtin f -> ~ In (t_type t, ReadWrite) (documented f) -> tag_is_empty t = true -> tag_save run g t d =
  match f with
  | FMp4 => perform run FMp4 (Write Mp4Ilst (Generic t)) d
  | FOpus | FVorbis | FSpeex => perform run f (Write VorbisComments (Generic t)) d
  | FFlac => if tt_eqb (t_type t) Id3v2 then perform run FFlac Strip d else Panic
  | FApe => if tt_eqb (t_type t) Id3v2 then perform run FApe Strip d else Err WUnsupported
  | FMpc => if tt_eqb (t_type t) Id3v2 || tt_eqb (t_type t) Id3v1 then perform run FMpc (Write (t_type t) (Generic t)) d else Err WUnsupported
  | _ => Err WUnsupported
  end.
Proof.
  intros g t d f F B N E. unfold tag_save, save_to. rewrite F, E. cbn [bind]. destruct (builtin_support g f (t_type t) B) as (s & S). rewrite (support_ok _ _ _ _ S). cbn [bind].
  rewrite andb_false_r. unfold write_tag, generated_write, flac_write. destruct f; try destruct B; destruct (t_type t); try reflexivity; exfalso; apply N; cbn; auto.
Qed.
End One.
(** An empty APE tag that is saved to an MP4 file or an Ogg file is written as an (empty) tag of the format; for FLAC files it panics. *)
Theorem C208_mp4_refuted : forall C T (run : ftype -> act C T -> bytes -> res werr (list fop)) g d, format_of g d = Ok FMp4 -> tag_save run g (tag_new Ape) d = perform run FMp4 (Write Mp4Ilst (Generic (tag_new Ape))) d.
Proof. intros C T run g d F. rewrite (C208_empty run g _ d FMp4); auto; cbn; intuition discriminate. Qed.
Theorem C208_ogg_refuted : forall C T (run : ftype -> act C T -> bytes -> res werr (list fop)) g d f, In f [FOpus; FVorbis; FSpeex] -> format_of g d = Ok f -> tag_save run g (tag_new Ape) d = perform run f (Write VorbisComments (Generic (tag_new Ape))) d.
Proof. intros C T run g d f I F. destruct I as [<-|[<-|[<-|[]]]]; (rewrite (C208_empty run g _ d _ F); auto; cbn; intuition discriminate). Qed.
Theorem C208_flac_refuted : forall C T (run : ftype -> act C T -> bytes -> res werr (list fop)) g d k, ~ In k [VorbisComments; Id3v2] -> format_of g d = Ok FFlac -> tag_save run g (tag_new k) d = Panic.
Proof.
  intros C T run g d k N F. rewrite (C208_empty run g (tag_new k) d FFlac F); [|exact I| |reflexivity].
  - cbn [tag_new t_type]. rewrite tt_neq; auto. intros ->. apply N. cbn. auto.
  - cbn. intros [H|[H|[]]]; [|discriminate]. injection H as <-. apply N. cbn. auto.
Qed.
Theorem C208_custom_refuted : forall C T (run : ftype -> act C T -> bytes -> res werr (list fop)) g d name t r, format_of g d = Ok (FCustom name) -> lookup g name = Some r -> rs_support r (t_type t) = ReadWrite -> tag_save run g t d = Panic.
Proof. intros C T run g d name t r F L S. unfold tag_save, save_to. rewrite F. cbn [bind]. unfold support_of, tag_support. rewrite L, S. reflexivity. Qed.
Definition a_ogg : bytes := $"OggS" ++ repeat 0 22 ++ [1; 7; 1] ++ $"vorbis" ++ [0].
Example C208_example : format_of no_resolvers a_wav = Ok FWav /\ tag_save (C := unit) (T := unit) at_end no_resolvers (titled Ape) a_wav = Err WUnsupported /\ tag_save (C := unit) (T := unit) at_end no_resolvers (titled Id3v2) a_wav = Ok (a_wav ++ $"v2") /\
  tag_save (C := unit) (T := unit) at_end no_resolvers (tag_new RiffInfo) ($"fLaC") = Panic.
Proof. vm_compute. repeat split. Qed.

(** ** C209: removal of a tag *)
Section Rem.
Context {C T : Type} (run : ftype -> act C T -> bytes -> res werr (list fop)).
Theorem C209_readable : forall g k d f s, format_of g d = Ok f -> In (k, s) (documented f) ->
  remove_from run g k d = perform run f (match f, k with FFlac, Id3v2 | FApe, Id3v2 => Strip | _, _ => Write k (Generic (tag_new k)) end) d.
Proof.
  intros g k d f s F I. unfold remove_from. rewrite F. cbn [bind]. destruct f; cbn [documented In] in I; repeat (destruct I as [[= <- <-]|I]; [reflexivity|]); destruct I.
Qed.
Theorem C209_unsupported : forall g k d f, builtin f -> format_of g d = Ok f -> (forall s, ~ In (k, s) (documented f)) -> remove_from run g k d = Err WUnsupported.
Proof.
  intros g k d f B F N. unfold remove_from. rewrite F. cbn [bind]. assert (S : tag_support g f k = Ok Unsupported) by (apply C204_support; auto). rewrite (support_ok _ _ _ _ S). reflexivity.
Qed.
(** By a path: the file is never changed, *)
Theorem C209_path_refuted : forall g k path d, snd (remove_from_path run g k path d) = d.
Proof. intros g k path d. unfold remove_from_path. now destruct (from_path g path). Qed.
(** and removal of a tag that is there is an error. *)
Theorem C209_path_error_refuted : forall g k path d f s a log, from_path g path = Some f -> In (k, s) (documented f) -> write_tag f (tag_new k) = Ok a -> run f a d = Ok log -> log <> [] ->
  remove_from_path run g k path d = (Err WIo, d).
Proof.
  intros g k path d f s a log P I W R N. unfold remove_from_path. rewrite P. assert (B : builtin f) by (destruct f; try exact Logic.I; destruct I).
  assert (X : tag_support g f k = Ok s) by (apply C204_support; auto). assert (RD : is_readable s = true) by (destruct f; cbn [documented In] in I; repeat (destruct I as [[= <- <-]|I]; [reflexivity|]); destruct I).
  rewrite (support_ok _ _ _ _ X), W. cbn [bind]. rewrite RD, R. cbn [negb bind]. now destruct log.
Qed.
(** The type is that of the name, not of the content. *)
Theorem C209_path_name_refuted : forall g k path d, from_path g path = None -> remove_from_path run g k path d = (Err WUnknown, d).
Proof. intros g k path d P. unfold remove_from_path. now rewrite P. Qed.
End Rem.
Example C209_example : remove_from (C := unit) (T := unit) at_end no_resolvers RiffInfo a_wav = Ok (a_wav ++ $"x") /\ remove_from_path (C := unit) (T := unit) at_end no_resolvers RiffInfo ($"a.wav") a_wav = (Err WIo, a_wav) /\
  remove_from_path (C := unit) (T := unit) at_end no_resolvers RiffInfo ($"a") a_wav = (Err WUnknown, a_wav) /\ remove_from (C := unit) (T := unit) at_end no_resolvers Ape a_wav = Err WUnsupported.
Proof. vm_compute. repeat split. Qed.

(** ** C210: the files of the formats; [shaped]: the tags are those of the fields. *)
Section Nat.
Context {C T : Type} (run : ftype -> act C T -> bytes -> res werr (list fop)).
Definition shaped (x : nfile T) : Prop := map fst (nf_tags x) = fields (nf_type x) /\ Forall (fun e => match snd e with Some n => nt_type n = fst e | None => True end) (nf_tags x).
(** The fields are the tags that the format can read. *)
Theorem C210_fields : forall f k, In k (fields f) <-> exists s, In (k, s) (documented f).
Proof. intros f k. destruct f; cbn; split; intros H; repeat (destruct H as [H|H]; [subst; eauto 6|]); try destruct H; destruct k; repeat (match goal with H : exists _, _ |- _ => destruct H | H : _ \/ _ |- _ => destruct H | H : (_, _) = (_, _) |- _ => inversion H; clear H; subst | H : False |- _ => destruct H end); eauto 6. Qed.
Inductive nwritten f : list (native T) -> bytes -> bytes -> Prop :=
| NW_nil : forall d, nwritten f [] d d
| NW_write : forall n l d d1 d', done run f (Write (nt_type n) (Native n)) d d1 -> nwritten f l d1 d' -> nwritten f (n :: l) d d'.
Definition present (x : nfile T) : list (native T) := flat_map (fun e => match snd e with Some n => [n] | None => [] end) (nf_tags x).
Lemma native_rw : forall g f n d, builtin f -> format_of g d = Ok f -> tag_support g f (nt_type n) = Ok ReadWrite -> native_save run g n d = perform run f (Write (nt_type n) (Native n)) d.
Proof.
  intros g f n d B F S. unfold native_save, save_to. rewrite F. cbn [bind]. rewrite (support_ok _ _ _ _ S). cbn [bind is_writable negb andb]. unfold native_write.
  destruct f; try destruct B; destruct (nt_type n); try discriminate S; reflexivity.
Qed.
Theorem C210_saved : forall g x d d', builtin (nf_type x) -> nf_type x <> FFlac -> kept_type run g (nf_type x) -> format_of g d = Ok (nf_type x) -> Forall (fun n => In (nt_type n, ReadWrite) (documented (nf_type x))) (present x) ->
  (file_save run g x d = (Ok tt, d') <-> nwritten (nf_type x) (present x) d d').
Proof.
  intros g x d d' B _ K F A. unfold file_save, present in *. revert d F A. induction (nf_tags x) as [|[k [n|]] l IH]; intros d F A; cbn [save_fields flat_map snd app] in *.
  - split; [intros [= ->]; constructor|intros H; now inversion H].
  - apply Forall_cons_iff in A as [A0 A]. rewrite (native_rw _ _ _ _ B F) by (now apply rw_iff). split.
    + destruct (perform run (nf_type x) _ d) as [d1|?|] eqn:P; try discriminate. intros H. apply perform_iff in P. eapply NW_write; [exact P|]. apply IH; auto. eapply K; eauto.
    + intros H. inversion H as [|? ? ? d1 ? D W]; subst. rewrite (proj2 (perform_iff _ _ _ _ _) D). apply IH; auto. eapply K; eauto.
  - now apply IH.
Qed.
(** A file with a tag that the format only reads cannot be saved: what stands before that tag is written, what follows is not. *)
Theorem C210_readonly_refuted : forall g x d pre n post, builtin (nf_type x) -> kept_type run g (nf_type x) -> format_of g d = Ok (nf_type x) -> present x = pre ++ n :: post ->
  Forall (fun n => In (nt_type n, ReadWrite) (documented (nf_type x))) pre -> In (nt_type n, ReadOnly) (documented (nf_type x)) -> nt_empty n = false ->
  forall d', nwritten (nf_type x) pre d d' -> file_save run g x d = (Err WUnsupported, d').
Proof.
  intros g x d pre n post B K F P A RO E d' W. unfold file_save, present in *. revert d pre F P A W. induction (nf_tags x) as [|[k [m|]] l IH]; intros d pre F P A W; cbn [save_fields flat_map snd app] in *.
  - destruct pre; discriminate.
  - destruct pre as [|m' pre]; injection P as -> P.
    + inversion W; subst. unfold native_save, save_to. rewrite F. cbn [bind]. assert (S : tag_support g (nf_type x) (nt_type n) = Ok ReadOnly) by (apply C204_support; auto). rewrite (support_ok _ _ _ _ S), E. reflexivity.
    + apply Forall_cons_iff in A as [A0 A]. rewrite (native_rw _ _ _ _ B F) by (now apply rw_iff). inversion W as [|? ? ? d1 ? D W1]; subst. rewrite (proj2 (perform_iff _ _ _ _ _) D). eapply IH; eauto.
  - eapply IH; eauto.
Qed.
(** FLAC files have their own code; the comments get the pictures of the file. *)
Theorem C210_flac : forall g vc pics join d, format_of g d = Ok FFlac -> nt_type (join vc) = VorbisComments -> (pics = true \/ vc <> None) ->
  flac_save run g None vc pics join d = match perform run FFlac (Write VorbisComments (Native (join vc))) d with Ok d' => (Ok tt, d') | Err e => (Err e, d) | Panic => (Panic, d) end.
Proof. intros g vc pics join d F J P. unfold flac_save. replace (if pics then _ else _) with (Some (join vc)) by (destruct pics; auto; destruct vc; auto; destruct P; congruence). rewrite F. cbn [bind]. unfold native_write. now rewrite J. Qed.
Theorem C210_flac_readonly_refuted : forall g n vc pics join d, format_of g d = Ok FFlac -> nt_type n = Id3v2 -> nt_empty n = false -> flac_save run g (Some n) vc pics join d = (Err WUnsupported, d).
Proof. intros g n vc pics join d F N E. unfold flac_save, native_save, save_to. rewrite F, N, E. reflexivity. Qed.
(** Saved to a file of another format, comments are not refused: it panics, or the file is an Ogg file and gets them. *)
Theorem C210_flac_other_refuted : forall g n pics join d f, nt_type (join (Some n)) = VorbisComments -> format_of g d = Ok f -> ~ In f [FFlac; FOpus; FVorbis; FSpeex] ->
  flac_save run g None (Some n) pics join d = (Panic, d).
Proof. intros g n pics join d f J F N. unfold flac_save. replace (if pics then _ else _) with (Some (join (Some n))) by (now destruct pics). rewrite F. cbn [bind]. unfold native_write. rewrite J. destruct f; try reflexivity; exfalso; apply N; cbn; auto. Qed.
(** A file and the tagged file that is made of it have the same tags. *)
Theorem C210_tagged : forall conv x k, shaped x -> (forall n, t_type (conv n) = nt_type n) ->
  map (fun t => t_type t) (tf_tags (to_tagged (C := C) conv x)) = map nt_type (present x) /\ (file_contains k x = true <-> exists t, find_tag k (to_tagged conv x) = Some t) /\
  forall n, In n (present x) -> find_tag (nt_type n) (to_tagged conv x) = Some (conv n).
Proof.
  intros conv x k [SH TY] CV. unfold to_tagged, present, file_contains, find_tag. cbn [tf_tags].
  assert (ND : NoDup (map fst (nf_tags x))). { rewrite SH. destruct (nf_type x); cbn [fields]; repeat constructor; cbn; intuition discriminate. }
  clear SH. revert TY ND. induction (nf_tags x) as [|[k0 o] l IH]; intros TY ND; [cbn; repeat split; [discriminate|intros (? & [=])|intros ? []]|].
  apply Forall_cons_iff in TY as [T0 TY]. cbn [map] in ND. inversion ND as [|? ? NI ND']; subst. destruct (IH TY ND') as (I1 & I2 & I3). cbn [fst snd] in T0. destruct o as [n|]; cbn [flat_map map existsb app find fst snd] in *.
  - repeat split.
    + now rewrite CV, I1.
    + rewrite CV, T0. destruct (tt_eqb k0 k) eqn:E; cbn [andb orb]; [eauto|]. apply I2.
    + rewrite CV, T0. destruct (tt_eqb k0 k) eqn:E; cbn [andb orb]; [eauto|]. apply I2.
    + intros m [<-|I]; [now rewrite CV, tt_refl|]. rewrite CV, T0. rewrite tt_neq; [auto|]. intros X. apply NI. rewrite X. apply in_flat_map in I as ([k1 [m1|]] & I & J); [|destruct J]. destruct J as [<-|[]]. rewrite Forall_forall in TY. specialize (TY _ I). cbn [fst snd] in TY. rewrite TY. change k1 with (fst (k1, Some m1)). now apply in_map.
  - rewrite andb_false_r. cbn [orb]. auto.
Qed.
End Nat.
Example C210_example : let v1 := mkNt Id3v1 false tt in let v2 := mkNt Id3v2 false tt in let ape := mkNt Ape false tt in
  file_save (C := unit) at_end no_resolvers (mkNf FApe [(Id3v1, Some v1); (Id3v2, Some v2); (Ape, Some ape)]) ($"MAC ") = (Err WUnsupported, $"MAC x") /\
  file_save (C := unit) at_end no_resolvers (mkNf FApe [(Id3v1, Some v1); (Id3v2, None); (Ape, Some ape)]) ($"MAC ") = (Ok tt, $"MAC xx") /\
  shaped (mkNf FApe [(Id3v1, Some v1); (Id3v2, Some v2); (Ape, Some ape)]).
Proof. split; [vm_compute; reflexivity|]. split; [vm_compute; reflexivity|]. split; [reflexivity|]. repeat constructor. Qed.

(** ** C211: saving a file with its handle: the file as above; the tags that were written empty are removed from the collection. *)
Theorem C211_bound : forall C T (run : ftype -> act C T -> bytes -> res werr (list fop)) g x d,
  let '(r, d', x') := bound_save run g x d in (r, d') = tagged_save run g x d /\ tf_type x' = tf_type x /\
  (r = Ok tt -> forall t, In t (tf_tags x') <-> In t (tf_tags x) /\ tag_is_empty t = false) /\ (r <> Ok tt -> x' = x).
Proof.
  intros C T run g x d. unfold bound_save. destruct (tagged_save run g x d) as [[[]|e|] d'] eqn:E; cbn [tf_type tf_tags]; repeat split; auto; try discriminate; try congruence.
  - apply filter_In in H0. tauto.
  - apply filter_In in H0 as [_ H0]. now destruct (tag_is_empty t).
  - intros [I J]. apply filter_In. now rewrite J.
Qed.
(** A tag that only has items of its format's own counts as empty and is dropped, although it is written. *)
Theorem C211_companion_refuted : exists (x : tagged unit) d d', bound_save (T := unit) at_end no_resolvers x d = (Ok tt, d', mkTf (tf_type x) []) /\ d' <> d /\ exists t, find_tag Id3v2 x = Some t /\ t_companion t <> None.
Proof. exists (mkTf FWav [mkTag Id3v2 [] [] (Some tt)]), a_wav, (a_wav ++ $"v2"). split; [vm_compute; reflexivity|]. split; [discriminate|]. eexists. split; [reflexivity|]. discriminate. Qed.
Example C211_example : bound_save (C := unit) (T := unit) at_end no_resolvers (mkTf FWav [tag_new RiffInfo; titled Id3v2]) a_wav = (Ok tt, a_wav ++ $"xv2", mkTf FWav [titled Id3v2]).
Proof. vm_compute. reflexivity. Qed.

Print Assumptions C206_remove.
Print Assumptions C206_insert.
Print Assumptions C206_change_type.
Print Assumptions C206_change.
Print Assumptions C206_clear.
Print Assumptions C206_histories.
Print Assumptions C206_remap_refuted.
Print Assumptions C207_saved.
Print Assumptions C207_total.
Print Assumptions C207_cleared.
Print Assumptions C207_atomic_refuted.
Print Assumptions C208_supported.
Print Assumptions C208_unsupported.
Print Assumptions C208_unknown.
Print Assumptions C208_empty.
Print Assumptions C208_mp4_refuted.
Print Assumptions C208_ogg_refuted.
Print Assumptions C208_flac_refuted.
Print Assumptions C208_custom_refuted.
Print Assumptions C209_readable.
Print Assumptions C209_unsupported.
Print Assumptions C209_path_refuted.
Print Assumptions C209_path_error_refuted.
Print Assumptions C209_path_name_refuted.
Print Assumptions C210_fields.
Print Assumptions C210_saved.
Print Assumptions C210_readonly_refuted.
Print Assumptions C210_flac.
Print Assumptions C210_flac_readonly_refuted.
Print Assumptions C210_flac_other_refuted.
Print Assumptions C210_tagged.
Print Assumptions C211_bound.
Print Assumptions C211_companion_refuted.
