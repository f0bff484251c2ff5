(** C113: the items of a RIFF INFO list. *)
From Verif Require Import BaseLemmas StrLemmas TextProof IffModel IffSpec IffProof.

(** Keys that differ also when case is ignored, as [insert] leaves them. *)
Fixpoint distinct_keys (t : riff) : Prop :=
  match t with [] => True | (k, _) :: t => Forall (fun i => eq_ignore_case k (fst i) = false) t /\ distinct_keys t end.
Definition others (key : str) (t : riff) : riff := filter (fun i => negb (eq_ignore_case (fst i) key)) t.
Lemma filter_id : forall A (f : A -> bool) l, Forall (fun x => f x = true) l -> filter f l = l.
Proof. induction 1 as [|x l H F IH]; [reflexivity|]. cbn [filter]. now rewrite H, IH. Qed.
Lemma remove_others : forall key t, distinct_keys t ->
  match riff_remove_first key t with Some (v, t') => t' = others key t /\ exists k, In (k, v) t /\ eq_ignore_case k key = true | None => others key t = t end.
Proof.
  intros key t. induction t as [|[k v] t IH]; intro D; [reflexivity|]. destruct D as [D1 D2]. cbn [riff_remove_first others filter fst]. destruct (eq_ignore_case k key) eqn:E; cbn [negb].
  - split; [|exists k; split; [left; reflexivity|auto]]. symmetry. apply filter_id. eapply Forall_impl; [|exact D1]. intros [k2 v2] H. cbn [fst] in *.
    destruct (eq_ignore_case k2 key) eqn:E2; auto. rewrite eq_ignore_case_sym in E2. rewrite (eq_ignore_case_trans k key k2 E E2) in H. discriminate.
  - specialize (IH D2). destruct (riff_remove_first key t) as [[x t']|]; fold (others key t). destruct IH as [-> (k' & I & X)]. split; auto. exists k'. split; auto. now right. now rewrite IH.
Qed.
Lemma get_app : forall a b key, riff_get (a ++ b) key = match riff_get a key with Some v => Some v | None => riff_get b key end.
Proof. intros a b key. unfold riff_get. induction a as [|[k v] a IH]; [reflexivity|]. cbn [app find fst]. destruct (list_eqb k key); auto. Qed.
Lemma get_others : forall key key' t, riff_get (others key t) key' = if eq_ignore_case key' key then None else riff_get t key'.
Proof.
  intros key key' t. unfold riff_get, others. induction t as [|[k v] t IH]; [cbn; now destruct (eq_ignore_case key' key)|]. cbn [filter find fst]. destruct (list_eqb k key') eqn:E.
  - apply list_eqb_eq in E. subst k. destruct (eq_ignore_case key' key) eqn:E2; cbn [negb]. exact IH. cbn [find fst]. now rewrite list_eqb_refl.
  - destruct (eq_ignore_case k key); cbn [negb]. exact IH. cbn [find fst]. rewrite E. exact IH.
Qed.
Definition key_ok (key : str) : Prop := id_ok key.
Lemma key_valid : forall key, key_ok key -> (lenN (utf8_enc key) =? 4) && valid_fourcc (utf8_enc key) = true.
Proof. intros key K. rewrite ascii_enc by now apply id_ascii. apply id_ok_valid in K as [L V]. rewrite L, V. reflexivity. Qed.
(** [insert] replaces the item with that key (any case), keeps all others, and [get] finds the value. *)
Theorem C113_insert : forall t key value, distinct_keys t -> key_ok key ->
  riff_insert t key value = others key t ++ [(key, value)] /\ distinct_keys (riff_insert t key value) /\ riff_get (riff_insert t key value) key = Some value /\
  (forall key', eq_ignore_case key' key = false -> riff_get (riff_insert t key value) key' = riff_get t key').
Proof.
  intros t key value D K. assert (E : riff_insert t key value = others key t ++ [(key, value)]).
  { unfold riff_insert. rewrite key_valid by auto. assert (R := remove_others key t D). destruct (riff_remove_first key t) as [[v t']|]. destruct R as [-> _]. reflexivity. now rewrite R. }
  split; auto. rewrite E. split; [|split].
  - clear E. induction t as [|[k v] t IH]. cbn. auto. destruct D as [D1 D2]. specialize (IH D2). cbn [others filter fst]. destruct (eq_ignore_case k key) eqn:X; cbn [negb]; auto. cbn [app distinct_keys]. fold (others key t). split; auto.
    apply Forall_app. split; [|constructor; auto]. unfold others. apply Forall_forall. intros i I. apply filter_In in I as [I _]. rewrite Forall_forall in D1. auto.
  - rewrite get_app, get_others, eq_ignore_case_refl. unfold riff_get. cbn. now rewrite list_eqb_refl.
  - intros key' N. rewrite get_app, get_others, N. destruct (riff_get t key'); auto. unfold riff_get. cbn [find fst]. destruct (list_eqb key key') eqn:X; auto. apply list_eqb_eq in X. subst. rewrite eq_ignore_case_refl in N. discriminate.
Qed.
(** [remove] takes out the item with that key, gives its value, and keeps all others. *)
Theorem C113_remove : forall t key, distinct_keys t -> fst (riff_remove t key) = others key t /\
  (forall v, snd (riff_remove t key) = Some v -> exists k, In (k, v) t /\ eq_ignore_case k key = true) /\ (snd (riff_remove t key) = None -> others key t = t).
Proof.
  intros t key D. unfold riff_remove. assert (R := remove_others key t D). destruct (riff_remove_first key t) as [[v t']|]; cbn [fst snd].
  - destruct R as [-> R]. split; auto. split. intros v' E. inversion E; subst. exact R. discriminate.
  - rewrite R. split; auto. split. discriminate. auto.
Qed.
(** Keys that are no identifiers change nothing. *)
Theorem C113_bad_key : forall t key value, ~ id_ok (utf8_enc key) -> riff_insert t key value = t.
Proof.
  intros t key value B. unfold riff_insert. destruct (N.eqb_spec (lenN (utf8_enc key)) 4) as [L|]; [|reflexivity]. destruct (valid_fourcc (utf8_enc key)) eqn:V; [|reflexivity]. destruct B. apply id_ok_valid. auto.
Qed.
Example C113_ex : riff_insert [($"IART", $"a"); ($"inam", $"b")] ($"INAM") ($"c") = [($"IART", $"a"); ($"INAM", $"c")] /\ distinct_keys [($"IART", $"a"); ($"inam", $"b")].
Proof. split. reflexivity. cbn. repeat split; auto. Qed.
(** [get] does look at the case, so an inserted item can replace one that then is not found by its name. *)
Theorem C113_case_refuted : exists t, riff_get t ($"INAM") = Some ($"b") /\ riff_get (riff_insert t ($"inam") ($"c")) ($"INAM") = None.
Proof. exists [($"INAM", $"b")]. split; reflexivity. Qed.
(** A list read from a file may have a key twice: then [insert] replaces the first and [get] gives the second. *)
Theorem C113_duplicate_refuted : exists t, riff_get (riff_insert t ($"INAM") ($"new")) ($"INAM") <> Some ($"new").
Proof. exists [($"INAM", $"a"); ($"INAM", $"b")]. discriminate. Qed.
Print Assumptions C113_insert. Print Assumptions C113_remove. Print Assumptions C113_bad_key. Print Assumptions C113_case_refuted. Print Assumptions C113_duplicate_refuted.
