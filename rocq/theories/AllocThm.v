(** C230: memory is written inside of what was reserved. C231: the options of a thread are its own. *)
From Verif Require Import Base BaseLemmas Str TextModel PictureModel ApeModel FrameModel VorbisModel AllocModel.

Section Memory.
Context {A : Type}.
Implicit Type a : A.

Lemma update_app : forall (p : list (option A)) x y q, update (length p) x (p ++ y :: q) = p ++ x :: q.
Proof. induction p; cbn [length app update]; intros; [reflexivity|now rewrite IHp]. Qed.

(** The loop writes the cells from the length up to the size. *)
Lemma fill_exact : forall k fuel (p free q : list (option A)) a, (k <= fuel)%nat -> length free = k ->
  fill fuel (p ++ free ++ q) (lenN p) (lenN p + N.of_nat k) a = Ok (p ++ repeat (Some a) k ++ q, lenN p + N.of_nat k).
Proof.
  induction k as [|k IH]; intros fuel p free q a L F.
  - destruct free; [|discriminate]. rewrite N.add_0_r. destruct fuel; cbn [fill]; now rewrite N.eqb_refl.
  - destruct fuel as [|fuel]; [lia|]. destruct free as [|x free]; [discriminate|]. injection F as F. cbn [fill].
    replace (lenN p =? lenN p + N.of_nat (S k)) with false by (symmetry; apply N.eqb_neq; lia).
    replace (lenN p <? lenN (p ++ (x :: free) ++ q)) with true by (symmetry; apply N.ltb_lt; rewrite !lenN_app, lenN_cons; lia).
    unfold lenN at 1. rewrite Nnat.Nat2N.id. cbn [app]. rewrite update_app.
    replace (p ++ Some a :: free ++ q) with ((p ++ [Some a]) ++ free ++ q) by now rewrite <- app_assoc.
    replace (lenN p + 1) with (lenN (p ++ [Some a])) by now rewrite lenN_app.
    replace (lenN p + N.of_nat (S k)) with (lenN (p ++ [Some a]) + N.of_nat k) by (rewrite lenN_app; change (lenN [Some a]) with 1; lia).
    rewrite IH by (auto; lia). rewrite <- app_assoc. reflexivity.
Qed.
(** It leaves the memory if the vector is longer than the size. *)
Lemma fill_outside : forall fuel (cells : list (option A)) current expected a, expected < current -> fill fuel cells current expected a = Panic.
Proof.
  induction fuel as [|fuel IH]; intros; cbn [fill]; replace (current =? expected) with false by (symmetry; apply N.eqb_neq; lia); [reflexivity|].
  destruct (current <? lenN cells); [|reflexivity]. apply IH. lia.
Qed.

(** An allocator gives at least what is asked for. *)
Definition gives (grow : N -> option N) : Prop := forall n c, grow n = Some c -> n <= c.
(** A vector as it is in use: its elements, with room behind them *)
Definition holds (v : vec A) (l : list A) : Prop := v_len v = lenN l /\ v_contents v = map Some l /\ lenN l <= lenN (v_cells v).

Lemma holds_cells : forall v l, holds v l -> v_cells v = map Some l ++ dropN (lenN l) (v_cells v).
Proof. intros v l (L & C & _). unfold v_contents in C. rewrite L in C. rewrite <- C. symmetry. apply takeN_dropN. Qed.

Lemma repeat_ok : forall limit grow v l a n, gives grow -> holds v l -> lenN l <= n -> n <> 0 -> n <= limit ->
  (lenN l + n <= lenN (v_cells v) \/ grow (lenN l + n) <> None) ->
  exists v', fallible_repeat limit grow v a n = Ok v' /\ holds v' (l ++ repeat a (N.to_nat (n - lenN l))).
Proof.
  intros limit grow v l a n G H L Z M R. unfold fallible_repeat.
  replace (n =? 0) with false by (symmetry; now apply N.eqb_neq). replace (limit <? n) with false by (symmetry; now apply N.ltb_ge).
  pose proof H as (HL & _ & _).
  assert (exists v1, try_reserve grow v n = Ok v1 /\ holds v1 l /\ lenN l + n <= lenN (v_cells v1)) as (v1 & -> & H1 & R1).
  { unfold try_reserve. rewrite HL. destruct (lenN l + n <=? lenN (v_cells v)) eqn:E.
    - apply N.leb_le in E. eauto.
    - apply N.leb_gt in E. destruct R as [R|R]; [lia|]. destruct (grow (lenN l + n)) as [c|] eqn:EG; [|easy]. apply G in EG.
      eexists. split; [reflexivity|]. destruct H as (_ & C & R'). unfold holds, v_contents in *. cbn [v_cells v_len].
      rewrite HL in C. rewrite takeN_app_le, lenN_app, lenN_repeat by auto. repeat split; auto; lia. }
  cbn [bind]. rewrite (holds_cells v1 l H1). pose proof H1 as (L1 & _ & _). rewrite L1.
  set (free := takeN (n - lenN l) (dropN (lenN l) (v_cells v1))). set (q := dropN (n - lenN l) (dropN (lenN l) (v_cells v1))).
  assert (D : dropN (lenN l) (v_cells v1) = free ++ q) by (symmetry; apply takeN_dropN).
  assert (F : length free = N.to_nat (n - lenN l)).
  { apply Nnat.Nat2N.inj. change (N.of_nat (length free)) with (lenN free). unfold free. rewrite lenN_takeN, lenN_dropN. rewrite Nnat.N2Nat.id. lia. }
  rewrite D.
  assert (S1 : fill (S (length (map Some l ++ free ++ q))) (map Some l ++ free ++ q) (lenN l) n a
    = Ok (map Some l ++ repeat (Some a) (N.to_nat (n - lenN l)) ++ q, n)).
  { pose proof (fill_exact (N.to_nat (n - lenN l)) (S (length (map Some l ++ free ++ q))) (map Some l) free q a) as W.
    rewrite lenN_map, Nnat.N2Nat.id in W. replace (lenN l + (n - lenN l)) with n in W by lia. apply W; [|exact F].
    rewrite !app_length. lia. }
  rewrite S1. cbn [bind]. eexists. split; [reflexivity|].
  unfold holds, v_contents. cbn [v_cells v_len]. rewrite lenN_app, lenN_repeat, Nnat.N2Nat.id. split; [lia|]. split.
  - rewrite app_assoc. rewrite takeN_app; [|rewrite lenN_app, lenN_map, lenN_repeat; lia].
    rewrite map_app. f_equal. clear. induction (N.to_nat (n - lenN l)) as [|k IH]; [reflexivity|]. cbn [repeat map]. now rewrite IH.
  - rewrite !lenN_app, lenN_map, lenN_repeat. lia.
Qed.
Lemma new_holds : holds vec_new (@nil A).
Proof. split; [reflexivity|split; [reflexivity|apply N.le_refl]]. Qed.

(** C230. What is asked for is refused exactly if it is over the limit or the allocator has none; otherwise all of it is written, inside of the memory, and nothing else is in use. *)
Theorem C230_from_element : forall limit grow a n, gives grow ->
  match fallible_vec_from_element limit grow a n with
  | Ok v => holds v (repeat a (N.to_nat n)) /\ n <= limit
  | Err LimitExceeded => limit < n
  | Err ReserveError => 0 < n <= limit /\ grow n = None
  | Panic => False
  end.
Proof.
  intros limit grow a n G. unfold fallible_vec_from_element. destruct (N.eq_dec n 0) as [->|Z].
  - cbn. split; [apply new_holds|lia].
  - destruct (N.lt_ge_cases limit n) as [C|C].
    + unfold fallible_repeat. replace (n =? 0) with false by (symmetry; now apply N.eqb_neq). replace (limit <? n) with true by (symmetry; now apply N.ltb_lt). exact C.
    + destruct (grow n) as [c|] eqn:E.
      * destruct (repeat_ok limit grow vec_new [] a n G new_holds) as (v & -> & H); [apply N.le_0_l|auto|auto|right; change (lenN (@nil A) + n) with n; now rewrite E|].
        rewrite N.sub_0_r in H. auto.
      * unfold fallible_repeat, try_reserve. replace (n =? 0) with false by (symmetry; now apply N.eqb_neq). replace (limit <? n) with false by (symmetry; now apply N.ltb_ge).
        cbn [v_len vec_new v_cells]. rewrite N.add_0_l. change (lenN (@nil (option A))) with 0. replace (n <=? 0) with false by (symmetry; apply N.leb_gt; lia). rewrite E. cbn. split; [lia|reflexivity].
Qed.
(** The limit is checked before the allocator is asked. *)
Theorem C230_limit_first : forall limit g g' a n, limit < n -> fallible_vec_from_element limit g a n = fallible_vec_from_element limit g' a n.
Proof.
  intros. unfold fallible_vec_from_element, fallible_repeat. destruct (n =? 0); [reflexivity|]. now replace (limit <? n) with true by (symmetry; now apply N.ltb_lt).
Qed.
(** On a vector that has elements, the size is that of the result: the elements are kept and the rest is filled. *)
Theorem C230_repeat : forall limit grow v l a n, gives grow -> holds v l -> lenN l <= n -> 0 < n <= limit -> grow (lenN l + n) <> None ->
  exists v', fallible_repeat limit grow v a n = Ok v' /\ holds v' (l ++ repeat a (N.to_nat (n - lenN l))).
Proof. intros. apply repeat_ok; auto; lia. Qed.
(** A longer vector would be written to outside of its memory (nothing calls it so: the trait is private, and used on new vectors). *)
Theorem C230_longer_refuted : forall limit grow v l a n, gives grow -> holds v l -> n < lenN l -> 0 < n <= limit -> grow (lenN l + n) <> None ->
  fallible_repeat limit grow v a n = Panic.
Proof.
  intros limit grow v l a n G (HL & C & R) Hn (Z & M) HG. unfold fallible_repeat, try_reserve. replace (n =? 0) with false by (symmetry; apply N.eqb_neq; lia).
  replace (limit <? n) with false by (symmetry; now apply N.ltb_ge). rewrite HL. destruct (lenN l + n <=? _).
  - cbn [bind]. now rewrite fill_outside by lia.
  - destruct (grow (lenN l + n)); [|easy]. cbn [bind v_len]. now rewrite fill_outside by lia.
Qed.
(** A capacity: nothing is in use, and there is room for what was asked for. *)
Theorem C230_capacity : forall limit grow n, gives grow ->
  match try_with_capacity_stable limit grow n with
  | Ok v => holds v [] /\ n <= lenN (v_cells (A := A) v) /\ n <= limit
  | Err LimitExceeded => limit < n
  | Err ReserveError => 0 < n <= limit /\ grow n = None
  | Panic => False
  end.
Proof.
  intros limit grow n G. unfold try_with_capacity_stable. destruct (limit <? n) eqn:E; [now apply N.ltb_lt|]. apply N.ltb_ge in E.
  unfold try_reserve. cbn [v_len vec_new v_cells]. rewrite N.add_0_l. change (lenN (@nil (option A))) with 0. destruct (n <=? 0) eqn:E0.
  - apply N.leb_le in E0. split; [apply new_holds|]. change (lenN (v_cells (@vec_new A))) with 0. lia.
  - apply N.leb_gt in E0. destruct (grow n) as [c|] eqn:EG; [|split; [lia|reflexivity]]. apply G in EG.
    cbn [v_cells app]. unfold holds, v_contents. cbn [v_len v_cells]. rewrite takeN_0, lenN_repeat, N.sub_0_r, Nnat.N2Nat.id. change (lenN (@nil A)) with 0. repeat split; lia.
Qed.
End Memory.
Example C230_example : gives (fun n => if n <=? 1000 then Some (N.max 8 n) else None) /\
  fallible_vec_from_element 16 (fun n => if n <=? 1000 then Some (N.max 8 n) else None) 7 3 = Ok (mkVec [Some 7; Some 7; Some 7; None; None; None; None; None] 3) /\
  fallible_vec_from_element 16 (fun n => if n <=? 1000 then Some (N.max 8 n) else None) 7 17 = Err LimitExceeded /\
  fallible_vec_from_element 5000 (fun n => if n <=? 1000 then Some (N.max 8 n) else None) 7 1001 = Err ReserveError.
Proof.
  split; [|repeat split]. intros n c H. cbv beta in H. destruct (n <=? 1000); [|discriminate]. injection H as <-. lia.
Qed.

(** ** C231 *)
(** What threads do: a list of applications, in any interleaving *)
Definition run_events (l : list (N * gopts)) (s : store) : store := fold_left (fun s e => apply_global_options (fst e) (snd e) s) l s.
(** The last one of a thread *)
Definition last_of (t : N) (l : list (N * gopts)) : option gopts := fold_left (fun o e => if fst e =? t then Some (snd e) else o) l None.

Lemma last_acc : forall t l o, fold_left (fun o e => if fst e =? t then Some (snd e) else o) l o = match last_of t l with Some x => Some x | None => o end.
Proof.
  unfold last_of. intros t l. induction l as [|e l IH]; intros; [reflexivity|]. cbn [fold_left]. destruct (fst e =? t).
  - rewrite IH. now destruct (fold_left _ l None).
  - apply IH.
Qed.
(** C231. The options that a thread sees are those that it applied last, and the default before that, whatever other threads do. *)
Theorem C231_thread : forall l t, global_options t (run_events l initial_store) = match last_of t l with Some o => o | None => go_new end.
Proof.
  intros l t. unfold global_options.
  assert (G : forall l s, run_events l s t = match last_of t l with Some o => o | None => s t end).
  { intros m. induction m as [|e l' IH]; intros s; [reflexivity|]. unfold run_events, last_of. cbn [fold_left]. fold (run_events l' (apply_global_options (fst e) (snd e) s)).
    rewrite IH, last_acc. unfold apply_global_options. rewrite (N.eqb_sym t). destruct (last_of t l'); [now destruct (fst e =? t)|]. now destruct (fst e =? t). }
  apply G.
Qed.
Theorem C231_others : forall l l' t s, filter (fun e => fst e =? t) l = filter (fun e => fst e =? t) l' ->
  global_options t (run_events l s) = global_options t (run_events l' s).
Proof.
  unfold global_options.
  assert (G : forall l t s, run_events l s t = run_events (filter (fun e => fst e =? t) l) s t).
  { induction l as [|e l IH]; intros t s; [reflexivity|]. cbn [filter]. unfold run_events at 1. cbn [fold_left]. fold (run_events l (apply_global_options (fst e) (snd e) s)).
    destruct (fst e =? t) eqn:E.
    - unfold run_events at 2. cbn [fold_left]. fold (run_events (filter (fun e => fst e =? t) l) (apply_global_options (fst e) (snd e) s)). apply IH.
    - rewrite IH. generalize (filter (fun e => fst e =? t) l). apply N.eqb_neq in E.
      assert (K : forall m s s', s t = s' t -> run_events m s t = run_events m s' t).
      { induction m as [|x m IHm]; intros s0 s' H; [exact H|]. unfold run_events. cbn [fold_left]. apply IHm. unfold apply_global_options. now destruct (t =? fst x). }
      intros m. apply K. unfold apply_global_options. replace (t =? fst e) with false; [reflexivity|]. symmetry. apply N.eqb_neq. congruence. }
  intros l l' t s H. now rewrite G, H, <- G.
Qed.
(** The defaults, and setters that change what they name. *)
Theorem C231_setters : forall o b n,
  go_new = mkGo true 16777216 true /\
  (go_resolvers (use_custom_resolvers b o) = b /\ go_limit (use_custom_resolvers b o) = go_limit o /\ go_preserve (use_custom_resolvers b o) = go_preserve o) /\
  (go_limit (allocation_limit n o) = n /\ go_resolvers (allocation_limit n o) = go_resolvers o /\ go_preserve (allocation_limit n o) = go_preserve o) /\
  (go_preserve (preserve_format_specific_items b o) = b /\ go_resolvers (preserve_format_specific_items b o) = go_resolvers o /\ go_limit (preserve_format_specific_items b o) = go_limit o).
Proof. repeat split. Qed.
Example C231_example : let l := [(1, allocation_limit 50 go_new); (2, use_custom_resolvers false go_new); (1, allocation_limit 60 go_new)] in
  go_limit (global_options 1 (run_events l initial_store)) = 60 /\ go_resolvers (global_options 1 (run_events l initial_store)) = true /\
  go_resolvers (global_options 2 (run_events l initial_store)) = false /\ global_options 3 (run_events l initial_store) = go_new.
Proof. repeat split. Qed.
