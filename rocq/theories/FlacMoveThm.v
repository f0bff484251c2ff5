(** C76, C77: replacing a range in place. *)
From Verif Require Import Base BaseLemmas FileModel FlacMoveModel.

(** What [Vec::splice] does. *)
Definition spliced (data : bytes) (start stop : N) (new : bytes) : bytes := takeN start data ++ new ++ dropN stop data.

Lemma write_inside : forall a x b y, lenN x = lenN y -> write_at (lenN a) y (a ++ x ++ b) = a ++ y ++ b.
Proof.
  intros. unfold write_at. rewrite takeN_app by auto.
  replace (N.to_nat (lenN a - lenN (a ++ x ++ b))) with O by (rewrite lenN_app; lia). cbn [repeat app].
  rewrite (app_assoc a x b), (dropN_app _ _ (a ++ x)); [reflexivity|]. rewrite lenN_app. lia.
Qed.
Lemma write_end : forall a y, write_at (lenN a) y a = a ++ y.
Proof. intros. unfold write_at. rewrite takeN_all, dropN_all by lia. rewrite N.sub_diag, app_nil_r. reflexivity. Qed.
Lemma do_op_fst : forall o s, fst (do_op o s) = apply_op (fst s) o. Proof. reflexivity. Qed.
Lemma split3 : forall (l : bytes) p n, p + n <= lenN l -> exists a x b, l = a ++ x ++ b /\ lenN a = p /\ lenN x = n.
Proof.
  intros. exists (takeN p l), (takeN n (dropN p l)), (dropN n (dropN p l)). rewrite !takeN_dropN. split; auto.
  rewrite !lenN_takeN, lenN_dropN. lia.
Qed.

(** The log of a state is what led from [data] to its content. *)
Definition sound (data : bytes) (s : fstate) : Prop := apply_log data (snd s) = fst s.
Lemma sound_op : forall data s o, sound data s -> sound data (do_op o s).
Proof. unfold sound, do_op, apply_log. intros. cbn [fst snd]. rewrite fold_left_app, H. reflexivity. Qed.

Lemma extend_spec : forall data b, 0 < b -> forall fuel n s, (N.to_nat n < fuel)%nat -> sound data s ->
  exists s', extend_storage fuel b n s = Ok s' /\ sound data s' /\ fst s' = fst s ++ repeat 0 (N.to_nat n).
Proof.
  intros data b B; induction fuel; intros n s F S; [lia|]. cbn [extend_storage]. destruct (N.eqb_spec n 0).
  - exists s. subst. rewrite app_nil_r. auto.
  - destruct (IHfuel (n - N.min n b) (do_op (OpWrite (lenN (fst s)) (repeat 0 (N.to_nat (N.min n b)))) s) ltac:(lia) ltac:(now apply sound_op)) as (s' & E & S' & F').
    exists s'. split; auto. split; auto. rewrite F', do_op_fst. cbn [apply_op]. rewrite write_end, <- app_assoc, <- repeat_app. do 2 f_equal. lia.
Qed.

(** Invariant: the part still to be moved is in its place, the rest is already moved. *)
Lemma shift_right_spec : forall data b amount, 0 < b -> forall fuel pre todo done gap s, (length todo < fuel)%nat -> sound data s ->
  lenN gap = amount -> fst s = pre ++ todo ++ gap ++ done ->
  exists s' gap', shift_right fuel b (lenN pre) (lenN pre + lenN todo) amount s = Ok s' /\ sound data s' /\
    fst s' = pre ++ gap' ++ todo ++ done /\ lenN gap' = amount.
Proof.
  intros data b amount B. induction fuel; intros pre todo done gap s F S G E; [lia|]. cbn [shift_right].
  destruct (N.ltb_spec (lenN pre) (lenN pre + lenN todo)).
  2:{ assert (todo = []) by (apply lenN_0; lia). subst. exists s, gap. cbn [app] in *. auto. }
  replace (lenN pre + lenN todo - lenN pre) with (lenN todo) by lia.
  set (chunk := N.min (lenN todo) b).
  destruct (split3 todo (lenN todo - chunk) chunk ltac:(lia)) as (t1 & x & t2 & Et & L1 & L2).
  assert (t2 = []). { apply lenN_0. rewrite Et, !lenN_app in L1. lia. } subst t2. rewrite app_nil_r in Et.
  replace (lenN pre + lenN todo - chunk) with (lenN (pre ++ t1)) by (rewrite lenN_app; lia).
  assert (R : read_at (lenN (pre ++ t1)) chunk s = Ok x).
  { unfold read_at. rewrite E, Et. rewrite <- app_assoc, (app_assoc pre). rewrite dropN_app by auto. now rewrite read_exact_app. }
  rewrite R. cbn [bind].
  (* the chunk is written over the end of [x ++ gap] *)
  destruct (split3 (x ++ gap) (amount) (lenN x) ltac:(rewrite lenN_app; lia)) as (g1 & y & g2 & Eg & LG1 & LG2).
  assert (g2 = []). { apply lenN_0. assert (lenN (x ++ gap) = lenN (g1 ++ y ++ g2)) by congruence. rewrite !lenN_app in H0. lia. }
  subst g2. rewrite app_nil_r in Eg.
  destruct (IHfuel pre t1 (x ++ done) g1 (do_op (OpWrite (lenN (pre ++ t1) + amount) x) s)) as (s' & g' & E' & S' & F' & G').
  - assert (length todo = (length t1 + length x)%nat) by (rewrite Et; apply app_length). unfold lenN in *. lia.
  - now apply sound_op.
  - auto.
  - rewrite do_op_fst. cbn [apply_op]. rewrite E, Et.
    replace (pre ++ (t1 ++ x) ++ gap ++ done) with ((pre ++ t1 ++ g1) ++ y ++ done).
    2:{ rewrite <- !app_assoc. do 2 f_equal. rewrite !app_assoc. now rewrite <- Eg. }
    replace (lenN (pre ++ t1) + amount) with (lenN (pre ++ t1 ++ g1)) by (rewrite !lenN_app; lia).
    rewrite write_inside by lia. now rewrite <- !app_assoc.
  - exists s', g'. rewrite !lenN_app in *. split; auto. split; auto. split; auto. rewrite F', Et, <- !app_assoc. auto.
Qed.

Lemma shift_left_spec : forall data b amount, 0 < b -> forall fuel pre todo done gap s, (length todo < fuel)%nat -> sound data s ->
  lenN gap = amount -> fst s = pre ++ done ++ gap ++ todo ->
  exists s' gap', shift_left fuel b (lenN pre + lenN done + amount) (lenN pre + lenN done + amount + lenN todo) amount s = Ok s' /\ sound data s' /\
    fst s' = pre ++ (done ++ todo) ++ gap' /\ lenN gap' = amount.
Proof.
  intros data b amount B. induction fuel; intros pre todo done gap s F S G E; [lia|]. cbn [shift_left].
  destruct (N.ltb_spec (lenN pre + lenN done + amount) (lenN pre + lenN done + amount + lenN todo)).
  2:{ assert (todo = []) by (apply lenN_0; lia). subst. exists s, gap. rewrite app_nil_r in *. auto. }
  replace (lenN pre + lenN done + amount + lenN todo - (lenN pre + lenN done + amount)) with (lenN todo) by lia.
  set (chunk := N.min (lenN todo) b).
  destruct (split3 todo 0 chunk ltac:(lia)) as (t1 & x & t2 & Et & L1 & L2). apply lenN_0 in L1. subst t1. cbn [app] in Et.
  assert (R : read_at (lenN pre + lenN done + amount) chunk s = Ok x).
  { unfold read_at. rewrite E, Et. rewrite !app_assoc. rewrite <- (app_assoc _ x t2). rewrite dropN_app by (rewrite !lenN_app; lia). now rewrite read_exact_app. }
  rewrite R. cbn [bind].
  destruct (split3 (gap ++ x) 0 (lenN x) ltac:(rewrite lenN_app; lia)) as (g1 & y & g2 & Eg & LG1 & LG2). apply lenN_0 in LG1. subst g1. cbn [app] in Eg.
  assert (LG : lenN g2 = amount). { assert (lenN (gap ++ x) = lenN (y ++ g2)) by congruence. rewrite !lenN_app in H0. lia. }
  destruct (IHfuel pre t2 (done ++ x) g2 (do_op (OpWrite (lenN pre + lenN done + amount - amount) x) s)) as (s' & g' & E' & S' & F' & G').
  - assert (length todo = (length x + length t2)%nat) by (rewrite Et; apply app_length). unfold lenN in *. lia.
  - now apply sound_op.
  - auto.
  - rewrite do_op_fst. cbn [apply_op]. rewrite E, Et.
    replace (pre ++ done ++ gap ++ x ++ t2) with ((pre ++ done) ++ y ++ (g2 ++ t2)).
    2:{ rewrite <- !app_assoc. do 2 f_equal. rewrite !app_assoc. now rewrite <- Eg. }
    replace (lenN pre + lenN done + amount - amount) with (lenN (pre ++ done)) by (rewrite !lenN_app; lia).
    rewrite write_inside by lia. now rewrite <- !app_assoc.
  - exists s', g'. rewrite lenN_app in E'. replace (lenN pre + lenN done + amount + chunk) with (lenN pre + (lenN done + lenN x) + amount) by lia.
    replace (lenN pre + lenN done + amount + lenN todo) with (lenN pre + (lenN done + lenN x) + amount + lenN t2) by (rewrite Et, lenN_app; lia).
    split; auto. split; auto. split; auto. rewrite F', Et, <- !app_assoc. auto.
Qed.

(** The file after all operations is the old one with the range replaced, for every buffer size; a range outside the file is refused
    without touching it. *)
Theorem C76_replace_range : forall b data start stop new, 0 < b ->
  if (start <=? stop) && (stop <=? lenN data)
  then exists log, replace_range_with b data start stop new = Ok log /\ apply_log data log = spliced data start stop new
  else replace_range_with b data start stop new = Err MInput.
Proof.
  intros b data start stop new B. unfold replace_range_with.
  destruct (N.leb_spec start stop) as [Hs|Hs]; destruct (N.ltb_spec stop start) as [Hs'|Hs']; try lia; cbn [andb]; [|reflexivity].
  destruct (N.leb_spec stop (lenN data)) as [Hd|Hd]; destruct (N.ltb_spec (lenN data) stop) as [Hd'|Hd']; try lia; [|reflexivity].
  destruct (split3 data start (stop - start) ltac:(lia)) as (pre & old & tail & Ed & Lp & Lo).
  set (fuel := S (N.to_nat (lenN data + lenN new))).
  assert (LD : lenN data = lenN pre + lenN old + lenN tail) by (rewrite Ed, !lenN_app; lia).
  assert (SP : spliced data start stop new = pre ++ new ++ tail).
  { unfold spliced. rewrite Ed. rewrite takeN_app by auto. rewrite (app_assoc pre old tail), (dropN_app _ _ (pre ++ old)) by (rewrite lenN_app; lia). auto. }
  assert (FIN : forall s x, sound data s -> fst s = pre ++ x ++ tail -> lenN x = lenN new ->
    apply_log data (snd (do_op (OpWrite start new) s)) = spliced data start stop new).
  { intros s x S F L. pose proof (sound_op _ _ (OpWrite start new) S) as S2. unfold sound in S2. rewrite S2, do_op_fst, F, SP.
    cbn [apply_op]. rewrite <- Lp. now apply write_inside. }
  assert (TN : (length tail < fuel)%nat) by (unfold fuel, lenN in *; lia).
  destruct (N.ltb_spec (stop - start) (lenN new)) as [HG|HG]; [|destruct (N.ltb_spec (lenN new) (stop - start)) as [HL|HL]].
  - set (d := lenN new - (stop - start)).
    destruct (extend_spec data b B fuel d (data, [])) as (s1 & E1 & S1 & F1); [unfold fuel; lia|reflexivity|].
    rewrite E1. cbn [bind]. cbn [fst] in F1.
    destruct (shift_right_spec data b d B fuel (pre ++ old) tail [] (repeat 0 (N.to_nat d)) s1 TN S1) as (s2 & g & E2 & S2 & F2 & G2).
    + rewrite lenN_repeat. lia.
    + rewrite F1, Ed, app_nil_r, <- !app_assoc. auto.
    + replace (lenN (pre ++ old)) with stop in E2 by (rewrite lenN_app; lia). replace (stop + lenN tail) with (lenN data) in E2 by lia.
      rewrite E2. cbn [bind]. eexists. split; [reflexivity|]. apply (FIN s2 (old ++ g)); auto.
      rewrite F2, app_nil_r, <- !app_assoc. auto. rewrite lenN_app. lia.
  - set (d := (stop - start) - lenN new).
    destruct (split3 old (lenN new) d ltac:(lia)) as (o1 & o2 & o3 & Eo & LO1 & LO2).
    assert (o3 = []). { apply lenN_0. rewrite Eo, !lenN_app in Lo. lia. } subst o3. rewrite app_nil_r in Eo.
    destruct (shift_left_spec data b d B fuel (pre ++ o1) tail [] o2 (data, []) TN eq_refl LO2) as (s1 & g & E1 & S1 & F1 & G1).
    { cbn [fst app]. rewrite Ed, Eo, <- !app_assoc. auto. }
    replace (lenN (pre ++ o1) + lenN (@nil N) + d) with stop in E1 by (rewrite lenN_app; change (lenN (@nil N)) with 0; lia).
    replace (stop + lenN tail) with (lenN data) in E1 by lia.
    rewrite E1. cbn [bind]. eexists. split; [reflexivity|]. apply (FIN _ o1).
    + now apply sound_op.
    + rewrite do_op_fst, F1. cbn [apply_op app]. unfold set_len.
      replace ((pre ++ o1) ++ tail ++ g) with ((pre ++ o1 ++ tail) ++ g) by now rewrite <- !app_assoc.
      rewrite takeN_app by (rewrite !lenN_app; lia).
      replace (N.to_nat (lenN data - d - lenN ((pre ++ o1 ++ tail) ++ g))) with O by (rewrite !lenN_app; lia). apply app_nil_r.
    + lia.
  - cbn [bind]. eexists. split; [reflexivity|]. apply (FIN (data, []) old); auto. reflexivity. lia.
Qed.
Print Assumptions C76_replace_range.
Theorem C76_as_used : forall data start stop new, start <= stop -> stop <= lenN data ->
  exists log, replace_range data start stop new = Ok log /\ apply_log data log = spliced data start stop new.
Proof.
  intros. pose proof (C76_replace_range MOVE_BUFFER_SIZE data start stop new eq_refl) as R.
  destruct (N.leb_spec start stop); [|lia]. destruct (N.leb_spec stop (lenN data)); [|lia]. exact R.
Qed.
Print Assumptions C76_as_used.
Example C76_ex : (exists log, replace_range_with 2 [0;1;2;3;4;5;6;7;8;9] 2 5 [21;22;23;24;25;26] = Ok log /\ length log = 6%nat /\
    apply_log [0;1;2;3;4;5;6;7;8;9] log = [0;1;21;22;23;24;25;26;5;6;7;8;9]) /\
  replace_range_with 2 [0;1;2] 2 4 [7] = Err MInput.
Proof. split; [eexists|]; vm_compute; auto. Qed.

(** An interruption is not harmless: bytes behind the range can be gone for good, also when every single write is atomic the file is
    neither the old nor the new one. *)
Theorem C77_crash_atomic_refuted : ~ (forall data start stop new log d, start <= stop -> stop <= lenN data ->
  replace_range data start stop new = Ok log -> crash data log d -> d = data \/ d = spliced data start stop new).
Proof.
  intro H. specialize (H [1; 2; 3; 4] 0 1 [9; 9] [OpWrite 4 [0]; OpWrite 2 [2; 3; 4]; OpWrite 0 [9; 9]] [1; 2; 2; 3; 4]
    ltac:(vm_compute; discriminate) ltac:(vm_compute; discriminate) ltac:(vm_compute; reflexivity)).
  destruct H as [H|H]; try (vm_compute in H; discriminate).
  apply (crash_clean [1; 2; 3; 4] [OpWrite 4 [0]; OpWrite 2 [2; 3; 4]; OpWrite 0 [9; 9]] [OpWrite 4 [0]; OpWrite 2 [2; 3; 4]] [OpWrite 0 [9; 9]]). reflexivity.
Qed.
Print Assumptions C77_crash_atomic_refuted.
(** The byte 3, which lies behind the replaced range, is nowhere in the file after a torn write. *)
Theorem C77_crash_keeps_tail_refuted : ~ (forall data start stop new log d, start <= stop -> stop <= lenN data ->
  replace_range data start stop new = Ok log -> crash data log d -> forall x, In x (dropN stop data) -> In x d).
Proof.
  intro H. specialize (H [1; 2; 3; 4] 0 1 [9; 9] [OpWrite 4 [0]; OpWrite 2 [2; 3; 4]; OpWrite 0 [9; 9]] [1; 2; 2; 4; 0]
    ltac:(vm_compute; discriminate) ltac:(vm_compute; discriminate) ltac:(vm_compute; reflexivity)).
  assert (K : crash [1; 2; 3; 4] [OpWrite 4 [0]; OpWrite 2 [2; 3; 4]; OpWrite 0 [9; 9]] [1; 2; 2; 4; 0]).
  { apply (crash_torn [1; 2; 3; 4] [OpWrite 4 [0]; OpWrite 2 [2; 3; 4]; OpWrite 0 [9; 9]] [OpWrite 4 [0]] (OpWrite 2 [2; 3; 4]) (OpWrite 2 (takeN 1 [2; 3; 4])) [OpWrite 0 [9; 9]]). reflexivity. constructor. }
  specialize (H K 3 ltac:(vm_compute; auto)). vm_compute in H. decompose [or] H; try discriminate; auto.
Qed.
Print Assumptions C77_crash_keeps_tail_refuted.

(** What does survive every interruption: everything in front of the range. *)
Definition behind (start : N) (o : fop) : Prop := match o with OpWrite p _ => start <= p | OpTrunc n => start <= n end.
Lemma behind_keeps : forall start o data, behind start o -> start <= lenN data ->
  takeN start (apply_op data o) = takeN start data /\ start <= lenN (apply_op data o).
Proof.
  intros start [p x|n] data B L; cbn [apply_op behind] in *.
  - assert (H : takeN start (write_at p x data) = takeN start data).
    { unfold write_at. rewrite takeN_app_le by (rewrite lenN_takeN; lia). unfold takeN. rewrite firstn_firstn. f_equal. lia. }
    split; auto. rewrite <- (N.min_l start (lenN data)), <- lenN_takeN, <- H, lenN_takeN by lia. lia.
  - assert (H : takeN start (set_len n data) = takeN start data).
    { unfold set_len. rewrite takeN_app_le by (rewrite lenN_takeN; lia). unfold takeN. rewrite firstn_firstn. f_equal. lia. }
    split; auto. rewrite <- (N.min_l start (lenN data)), <- lenN_takeN, <- H, lenN_takeN by lia. lia.
Qed.
Lemma behind_log : forall start log data, Forall (behind start) log -> start <= lenN data ->
  takeN start (apply_log data log) = takeN start data /\ start <= lenN (apply_log data log).
Proof.
  unfold apply_log. induction log; intros data B L; cbn [fold_left]; auto. inversion B; subst.
  destruct (behind_keeps start a data H1 L) as [K1 K2]. destruct (IHlog _ H2 K2) as [J1 J2]. rewrite J1, K1. auto.
Qed.
Lemma extend_behind : forall b start fuel n s s', Forall (behind start) (snd s) -> start <= lenN (fst s) ->
  extend_storage fuel b n s = Ok s' -> Forall (behind start) (snd s') /\ start <= lenN (fst s').
Proof.
  induction fuel; intros n s s' F L E; cbn [extend_storage] in E; destruct (n =? 0); inversion E; subst; auto.
  eapply IHfuel; [| |exact E].
  - unfold do_op. cbn [snd]. apply Forall_app. split; auto.
  - destruct (behind_keeps start (OpWrite (lenN (fst s)) (repeat 0 (N.to_nat (N.min n b)))) (fst s)); auto.
Qed.
Lemma shift_right_behind : forall b start lo amount, start <= lo -> forall fuel cur s s', Forall (behind start) (snd s) -> 
  shift_right fuel b lo cur amount s = Ok s' -> Forall (behind start) (snd s').
Proof.
  intros b start lo amount HL. induction fuel; intros cur s s' F E; cbn [shift_right] in E; destruct (N.ltb_spec lo cur); try (inversion E; subst; auto; fail).
  destruct (read_at _ _ s); cbn [bind] in E; try discriminate. eapply IHfuel; [|exact E].
  unfold do_op. cbn [snd]. apply Forall_app. split; auto. constructor; auto. cbn [behind]. lia.
Qed.
Lemma shift_left_behind : forall b start amount, forall fuel cur stop s s', start + amount <= cur -> Forall (behind start) (snd s) -> 
  shift_left fuel b cur stop amount s = Ok s' -> Forall (behind start) (snd s').
Proof.
  intros b start amount. induction fuel; intros cur stop s s' HC F E; cbn [shift_left] in E; destruct (N.ltb_spec cur stop); try (inversion E; subst; auto; fail).
  destruct (read_at _ _ s); cbn [bind] in E; try discriminate. eapply IHfuel; [| |exact E]. lia.
  unfold do_op. cbn [snd]. apply Forall_app. split; auto. constructor; auto. cbn [behind]. lia.
Qed.
Theorem C77_front_is_safe : forall b data start stop new log d, replace_range_with b data start stop new = Ok log ->
  crash data log d -> takeN start d = takeN start data.
Proof.
  intros b data start stop new log d R K. unfold replace_range_with in R.
  destruct (N.ltb_spec stop start); [discriminate|]. destruct (N.ltb_spec (lenN data) stop); [discriminate|].
  assert (B : Forall (behind start) log).
  { set (fuel := S (N.to_nat (lenN data + lenN new))) in *. 
    match type of R with bind ?x _ = _ => assert (A : match x with Ok s => Forall (behind start) (snd s) | _ => True end) end.
    { destruct (N.ltb_spec (stop - start) (lenN new)); [|destruct (N.ltb_spec (lenN new) (stop - start))].
      - destruct (extend_storage _ _ _ _) as [s1| |] eqn:E1; cbn [bind]; auto.
        apply (extend_behind b start) in E1 as [E1 _]; cbn [fst snd]; auto; try lia.
        destruct (shift_right _ _ _ _ _ _) eqn:E2; auto. eapply shift_right_behind; [|exact E1|exact E2]. lia.
      - destruct (shift_left _ _ _ _ _ _) eqn:E2; cbn [bind]; auto. unfold do_op. cbn [snd]. apply Forall_app. split.
        + eapply shift_left_behind; [| |exact E2]; [lia|constructor].
        + constructor; auto. cbn [behind]. lia.
      - constructor. }
    match type of R with bind ?x _ = _ => destruct x as [s| |]; cbn [bind] in R; try discriminate end.
    unfold do_op in R. cbn [snd] in R. assert (snd s ++ [OpWrite start new] = log) by congruence. subst log.
    apply Forall_app. split; auto. constructor; auto. cbn [behind]. lia. }
  assert (L : start <= lenN data) by lia. destruct K as [pre post E|pre o o' post E T]; subst log; apply Forall_app in B as [B1 B2].
  - now apply behind_log.
  - destruct (behind_log start pre data B1 L) as [J1 J2]. inversion B2; subst. rewrite <- J1.
    apply behind_keeps; auto. inversion T; subst. exact H3.
Qed.
Print Assumptions C77_front_is_safe.
