(** The frames of an ID3v2 tag: which frames a tag can hold at the same time. *)
From Coq Require Import Permutation.
From Verif Require Import BaseLemmas FrameListProof.
From Verif Require Export FrameListSpec FrameReadModel.
From Verif Require Import FrameThm.

(** Whatever is in the file, a tag that was read has no two frames with the same identity, neither in the tag nor in a chapter. *)
Theorem C142_read : forall inflate h o r t rest, parse_id3v2 inflate h o r = Ok (t, rest) -> tidy (t_frames t).
Proof.
  intros inflate h o r t rest E. unfold parse_id3v2 in E. cbv zeta in E.
  destruct (read_all _ _ _ _ _ _ _) as [[l y]| |] eqn:R; cbn [bind] in E; try discriminate E. injection E as <- _. cbn [t_frames].
  apply read_all_tidy in R; [|apply tidy_nil]. destruct (_ && _); auto. now apply tidy_construct.
Qed.
Print Assumptions C142_read.
(** Inserting a frame takes out the one with the same identity, returns it, and leaves the others alone. *)
Theorem C142_insert : forall f l, sane f -> tidy (inside f) -> tidy l -> exists others,
  fst (fl_insert f l) = others ++ [f] /\ tidy (others ++ [f]) /\ ~ In (identity_of f) (map identity_of others) /\
  match snd (fl_insert f l) with
  | Some old => identity_of old = identity_of f /\ Permutation l (old :: others)
  | None => Permutation l others
  end.
Proof.
  intros f l Sf Tf T. pose proof (tidy_insert f l Sf Tf T) as TI. pose proof T as T'. apply tidy_inv in T' as (S & ND & F).
  destruct (insert_spec f l Sf S ND) as (r & E & P & G & NI). exists r. rewrite <- E. split; auto. split; auto. split; auto.
  destruct (snd (fl_insert f l)) as [old|]; cbn [opt_list app] in P; auto. split; auto. apply G. now left.
Qed.
Print Assumptions C142_insert.
(** Of two frames with the same identity the later one is kept, unless it is empty and the earlier one is not. *)
Theorem C142_kept : forall f l, sane f -> tidy (inside f) -> tidy l -> exists others,
  ~ In (identity_of f) (map identity_of others) /\
  ((Permutation (add_read f l) (f :: others) /\
    (Permutation l others \/ exists old, Permutation l (old :: others) /\ identity_of old = identity_of f /\ ~ (f_is_empty f = Some true /\ f_is_empty old = Some false))) \/
   (exists old, Permutation (add_read f l) (old :: others) /\ Permutation l (old :: others) /\ identity_of old = identity_of f /\
      f_is_empty f = Some true /\ f_is_empty old = Some false)).
Proof.
  intros f l Sf Tf T. destruct (C142_insert f l Sf Tf T) as (r & E & TI & NI & O). exists r. split; auto. unfold add_read.
  destruct (fl_insert f l) as [l' [g|]]; cbn [fst snd] in *; subst l'.
  - destruct O as [Ig P]. assert (A : Permutation (r ++ [f]) (f :: r)) by (symmetry; apply Permutation_cons_append).
    destruct (f_is_empty f) as [[|]|] eqn:Ef; [destruct (f_is_empty g) as [[|]|] eqn:Eg| |].
    2: { right. exists g. split; auto.
         assert (Hg : sane g /\ tidy (inside g)). { apply tidy_inv in T as (S & _ & F). rewrite Forall_forall in *. assert (In g l) by (apply (Permutation_in _ (Permutation_sym P)); now left). auto. }
         destruct (C142_insert g (r ++ [f]) (proj1 Hg) (proj2 Hg) TI) as (r' & E & _ & NI' & O). rewrite E.
         destruct (snd (fl_insert g (r ++ [f]))) as [x|].
         - destruct O as [_ P']. assert (x = f).
           { assert (I : In f (x :: r')). { apply (Permutation_in _ P'). apply in_or_app. right. now left. }
             destruct I as [I|I]; auto. exfalso. apply NI'. rewrite Ig. now apply in_map. }
           subst x. rewrite <- Permutation_cons_append. constructor. rewrite A in P'. symmetry. now apply Permutation_cons_inv in P'.
         - exfalso. apply NI'. rewrite Ig. apply in_map. apply (Permutation_in _ O). apply in_or_app. right. now left. }
    all: left; split; auto; right; exists g; repeat split; auto; intros [? ?]; congruence.
  - left. split; auto. symmetry. apply Permutation_cons_append.
Qed.
Print Assumptions C142_kept.
(** Two comments of the same language and description are one comment; of other descriptions they are two. *)
Example C142_ex :
  let c d t := FComment (head ($"COMM")) Latin1 ($"eng") d t in
  fold_left (fun l f => add_read f l) [c [] ($"a"); c ($"x") ($"b"); c [] ($"c"); c ($"x") []] [] = [c [] ($"c"); c ($"x") ($"b")] /\
  fold_left (fun l f => add_read f l) [FText (head ($"TIT2")) Latin1 ($"a"); FText (head ($"TIT2")) UTF8 []] [] = [FText (head ($"TIT2")) Latin1 ($"a")] /\
  tidy [c [] ($"c"); c ($"x") []].
Proof.
  cbv zeta. split; [vm_compute; reflexivity|]. split; [vm_compute; reflexivity|].
  constructor; [apply Forall_cons; [|apply Forall_cons; [|apply Forall_nil]]; intro H; vm_compute in H; discriminate H| |
    apply Forall_cons; [|apply Forall_cons; [|apply Forall_nil]]; apply tidy_nil].
  cbn. constructor; [intros [H|[]]; vm_compute in H; discriminate H|constructor; [intros []|constructor]].
Qed.
