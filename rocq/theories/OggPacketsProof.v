From Verif Require Import BaseLemmas OggModel OggSpec OggCrcProof OggProof OggReadProof.

Definition pk_wf (p : packets) : Prop := sumN (pk_sizes p) <= lenN (pk_content p).
Definition pk_abs (p : packets) : list bytes := cut_sizes (pk_sizes p) (pk_content p).

Lemma cut_sizes_length : forall s c, length (cut_sizes s c) = length s.
Proof. induction s; intros; cbn [cut_sizes length]; auto. Qed.

Lemma cut_sizes_ext : forall s c t, sumN s <= lenN c -> cut_sizes s (c ++ t) = cut_sizes s c.
Proof.
  induction s; intros; cbn [cut_sizes sumN] in *; auto.
  rewrite takeN_app_le, dropN_app_le by lia. rewrite IHs; auto. rewrite lenN_dropN. lia.
Qed.
Lemma cut_sizes_take : forall s c n, sumN s <= n -> cut_sizes s (takeN n c) = cut_sizes s c.
Proof.
  induction s; intros; cbn [cut_sizes sumN] in *; auto.
  assert (E1 : takeN a (takeN n c) = takeN a c).
  { unfold takeN. rewrite firstn_firstn. f_equal. lia. }
  assert (E2 : dropN a (takeN n c) = takeN (n - a) (dropN a c)).
  { unfold takeN, dropN. rewrite skipn_firstn_comm. f_equal. lia. }
  rewrite E1, E2, IHs by lia. reflexivity.
Qed.
Lemma cut_sizes_firstn : forall k s c, cut_sizes (firstn k s) c = firstn k (cut_sizes s c).
Proof. induction k; intros; destruct s; cbn [firstn cut_sizes]; auto. now rewrite IHk. Qed.
Lemma cut_sizes_nth : forall i s c,
  nth_error (cut_sizes s c) i =
    match nth_error s i with Some n => Some (takeN n (dropN (sumN (firstn i s)) c)) | None => None end.
Proof.
  induction i; intros; destruct s; cbn [cut_sizes nth_error firstn sumN]; auto.
  rewrite IHi. destruct (nth_error s i); auto. rewrite dropN_dropN. reflexivity.
Qed.
Lemma cut_sizes_app : forall s1 s2 c, cut_sizes (s1 ++ s2) c = cut_sizes s1 c ++ cut_sizes s2 (dropN (sumN s1) c).
Proof.
  induction s1; intros; cbn [app cut_sizes sumN]; auto. rewrite IHs1, dropN_dropN. reflexivity.
Qed.

Lemma nth_sum : forall i s n, nth_error s i = Some n -> sumN (firstn i s) + n <= sumN s.
Proof.
  induction i; intros; destruct s; cbn [nth_error firstn sumN] in *; try discriminate.
  - inversion H; lia.
  - apply IHi in H. lia.
Qed.

Lemma span_spec : forall p i, packet_span p (N.of_nat i) =
  match nth_error (pk_sizes p) i with
  | Some n => Some (sumN (firstn i (pk_sizes p)), sumN (firstn i (pk_sizes p)) + n)
  | None => None end.
Proof.
  intros. unfold packet_span, takeN. rewrite Nnat.Nat2N.id.
  destruct (N.leb_spec (lenN (pk_sizes p)) (N.of_nat i)).
  - assert (nth_error (pk_sizes p) i = None) by (apply nth_error_None; unfold lenN in *; lia). now rewrite H0.
  - destruct (N.eqb_spec (N.of_nat i) 0); auto. replace i with O by lia. reflexivity.
Qed.

Lemma pk_get_spec : forall p i, pk_wf p -> pk_get p (N.of_nat i) = Ok (nth_error (pk_abs p) i).
Proof.
  intros. unfold pk_get. rewrite span_spec. unfold pk_abs. rewrite cut_sizes_nth.
  destruct (nth_error (pk_sizes p) i) eqn:E; auto.
  apply nth_sum in E. unfold pk_wf in H. unfold slice.
  set (a := sumN (firstn i (pk_sizes p))) in *.
  destruct (N.ltb_spec (a + n) a); [lia|]. destruct (N.ltb_spec (lenN (pk_content p)) (a + n)); [lia|].
  cbn [orb bind]. now replace (a + n - a) with n by lia.
Qed.

Lemma update_sum : forall i (s : list N) n v, nth_error s i = Some n -> sumN (update_nth i v s) + n = sumN s + v.
Proof.
  induction i; intros; destruct s; cbn [nth_error update_nth sumN] in *; try discriminate.
  - inversion H; lia.
  - apply (IHi _ _ v) in H. lia.
Qed.

Lemma update_split : forall i (s : list N) n v, nth_error s i = Some n ->
  s = firstn i s ++ n :: skipn (S i) s /\ update_nth i v s = firstn i s ++ v :: skipn (S i) s.
Proof.
  induction i; intros; destruct s; cbn [nth_error update_nth] in *; try discriminate.
  - inversion H; auto.
  - apply (IHi _ _ v) in H as [H1 H2]. cbn [firstn skipn app]. split; f_equal; auto.
Qed.
Lemma update_nth_app : forall A (l1 l2 : list A) x y, update_nth (length l1) x (l1 ++ y :: l2) = l1 ++ x :: l2.
Proof. induction l1; intros; cbn; auto. f_equal. apply IHl1. Qed.

Lemma pk_set_spec : forall p i c, pk_wf p ->
  match nth_error (pk_abs p) i with
  | None => pk_set p (N.of_nat i) c = Ok (false, p)
  | Some _ => exists p', pk_set p (N.of_nat i) c = Ok (true, p') /\
     pk_wf p' /\ pk_abs p' = update_nth i c (pk_abs p) /\
     dropN (sumN (pk_sizes p')) (pk_content p') = dropN (sumN (pk_sizes p)) (pk_content p)
  end.
Proof.
  intros p i c Hwf. unfold pk_set. rewrite span_spec. unfold pk_abs at 1. rewrite cut_sizes_nth.
  destruct (nth_error (pk_sizes p) i) eqn:E; [|reflexivity].
  pose proof (nth_sum _ _ _ E) as Hs. unfold pk_wf in Hwf.
  set (a := sumN (firstn i (pk_sizes p))) in *.
  destruct (N.ltb_spec (a + n) a); [lia|]. destruct (N.ltb_spec (lenN (pk_content p)) (a + n)); [lia|].
  cbn [orb]. eexists. split; [reflexivity|]. cbn [pk_sizes pk_content].
  rewrite Nnat.Nat2N.id.
  pose proof (update_sum i _ _ (lenN c) E) as Hus.
  destruct (update_split i _ _ (lenN c) E) as [S1 S2].
  assert (La : lenN (takeN a (pk_content p)) = a) by (rewrite lenN_takeN; lia).
  assert (Li : (i < length (pk_sizes p))%nat) by (apply nth_error_Some; congruence).
  repeat apply conj.
  - unfold pk_wf; cbn [pk_sizes pk_content]. rewrite !lenN_app, La, lenN_dropN. lia.
  - set (A := cut_sizes (firstn i (pk_sizes p)) (pk_content p)).
    assert (Hp : pk_abs p = A ++ takeN n (dropN a (pk_content p))
                   :: cut_sizes (skipn (S i) (pk_sizes p)) (dropN (a + n) (pk_content p))).
    { unfold pk_abs. rewrite S1 at 1. rewrite cut_sizes_app. cbn [cut_sizes]. rewrite dropN_dropN. reflexivity. }
    assert (Hi : i = length A). { unfold A. rewrite cut_sizes_length, firstn_length. lia. }
    rewrite Hp. replace (update_nth i) with (@update_nth bytes (length A)) by now rewrite <- Hi. rewrite update_nth_app.
    unfold pk_abs; cbn [pk_sizes pk_content]. rewrite S2.
    rewrite cut_sizes_app. cbn [cut_sizes]. fold a.
    rewrite (cut_sizes_ext (firstn i (pk_sizes p)) (takeN a (pk_content p))) by (unfold a in *; lia).
    rewrite cut_sizes_take by (unfold a; lia). fold A. f_equal.
    rewrite !(dropN_app _ a) by auto.
    rewrite takeN_app, dropN_app by auto. reflexivity.
  - rewrite app_assoc, dropN_app_ge; rewrite !lenN_app, ?La; [|lia].
    rewrite dropN_dropN. f_equal. lia.
Qed.

Lemma pk_iter_spec : forall s c, sumN s <= lenN c -> pk_iter (length s) c s = Ok (cut_sizes s c).
Proof.
  induction s; intros; cbn [pk_iter length cut_sizes sumN] in *; auto.
  destruct (N.ltb_spec (lenN c) a); [lia|]. rewrite IHs by (rewrite lenN_dropN; lia). reflexivity.
Qed.
Lemma pk_into_iter_spec : forall p, pk_wf p -> pk_into_iter p = Ok (pk_abs p).
Proof. intros; now apply pk_iter_spec. Qed.

Lemma pk_slices_spec : forall s c pos, pos + sumN s <= lenN c -> pk_slices c pos s = Ok (cut_sizes s (dropN pos c)).
Proof.
  induction s; intros; cbn [pk_slices cut_sizes sumN] in *; auto.
  unfold slice. destruct (N.ltb_spec (pos + a) pos); [lia|]. destruct (N.ltb_spec (lenN c) (pos + a)); [lia|].
  cbn [orb bind]. rewrite IHs by lia. cbn [bind]. rewrite dropN_dropN. now replace (pos + a - pos) with a by lia.
Qed.

(** Reading arbitrary bytes never panics and yields a well-formed value. *)
Definition rs_inv (s : rstate) : Prop :=
  lenN (rs_content s) = sumN (rs_sizes s) + a0 (rs_already s) /\ a0 (rs_already s) <= rs_psize s.

Lemma read_segs_inv : forall count segs s r, rs_inv s ->
  match read_segs count segs s r with
  | Panic => False
  | Err _ => True
  | Ok (_, s', r') => rs_inv s' /\ (length r' <= length r)%nat
  end.
Proof.
  intros count. induction segs; intros s r [H1 H2]; cbn [read_segs].
  - split; [split; auto|lia].
  - destruct (a <? 255).
    + rewrite byte_count_ok by lia. cbn [bind].
      destruct (read_exact (rs_psize s + a - a0 (rs_already s)) r) as [[buf r']|] eqn:E; cbn [io bind]; auto.
      apply read_exact_spec in E as [-> E].
      assert (I : rs_inv (mkR (rs_content s ++ buf) (rs_sizes s ++ [rs_psize s + a]) 0 None
          (if (count =? -1)%Z then rs_read s else (rs_read s + 1)%Z))).
      { split; cbn [rs_content rs_sizes rs_already rs_psize a0]; [|lia]. rewrite lenN_app, sumN_app. cbn [sumN]. lia. }
      match goal with |- context [Z.eqb ?x count] => destruct (Z.eqb x count) end.
      * split; auto. rewrite app_length. lia.
      * specialize (IHsegs _ r' I). destruct (read_segs count segs _ r') as [[[b s'] r'']| |]; auto.
        destruct IHsegs. split; auto. rewrite app_length. lia.
    + apply IHsegs. split; cbn; auto. lia.
Qed.

Lemma header_read_shrinks : forall pos r h r', header_read pos r = Ok (h, r') -> (length r' < length r)%nat.
Proof.
  intros. unfold header_read in H.
  bind_inv H sgn r1 E1. destruct (negb (list_eqb sgn OggS)); [discriminate|].
  bind_inv H ver r2 E2. destruct (negb (ver =? 0)); [discriminate|].
  bind_inv H flag r3 E3. bind_inv H abgp r4 E4. bind_inv H serial r5 E5. bind_inv H sq r6 E6.
  bind_inv H ck r7 E7. bind_inv H sg r8 E8.
  destruct (N.ltb_spec sg 1); [discriminate|].
  bind_inv H table r9 E9. inversion H; subst.
  apply io_ok in E1, E2, E3, E4, E5, E6, E7, E8, E9.
  apply read_exact_spec in E1 as [-> L1], E9 as [-> L9].
  apply read_u8_spec in E2, E3, E8.
  apply read_le_spec in E4 as (b4 & E4 & L4 & ->), E5 as (b5 & E5 & L5 & ->), E6 as (b6 & E6 & L6 & ->), E7 as (b7 & E7 & L7 & ->).
  subst. repeat (rewrite ?app_length; cbn [length]). unfold lenN in *. lia.
Qed.

Lemma header_read_nopanic : forall pos r, header_read pos r <> Panic.
Proof.
  intros pos r H. unfold header_read in H.
  repeat match type of H with
  | bind (io ?x) _ = Panic => destruct x as [[? ?]|]; cbn [io bind] in H; try discriminate H
  | (if ?b then _ else _) = Panic => destruct b; try discriminate H
  end.
Qed.

Lemma read_pages_inv : forall fuel count s r, (length r < fuel)%nat -> rs_inv s ->
  match read_pages fuel count s r with
  | Panic => False
  | Err _ => True
  | Ok (s', r') => rs_inv s'
  end.
Proof.
  induction fuel; intros count s r Hf I; [lia|]. cbn [read_pages].
  pose proof (header_read_nopanic 0 r) as Hnp.
  destruct (header_read 0 r) as [[h r1]|e|] eqn:Eh; auto.
  apply header_read_shrinks in Eh.
  pose proof (read_segs_inv count (pg_segs h) s r1 I) as RS.
  destruct (read_segs count (pg_segs h) s r1) as [[[stop s1] r2]|e|]; auto.
  destruct RS as [[I1 I2] L]. cbn [bind]. destruct stop; [split; auto|].
  destruct (negb (rs_psize s1 =? 0)).
  - rewrite byte_count_ok by auto. cbn [bind].
    destruct (read_exact (rs_psize s1 - a0 (rs_already s1)) r2) as [[buf r3]|] eqn:E; cbn [io bind]; auto.
    apply read_exact_spec in E as [-> E]. apply IHfuel. rewrite app_length in L. lia.
    split; cbn [rs_content rs_sizes rs_already rs_psize a0]; [|lia]. rewrite lenN_app. lia.
  - apply IHfuel. lia. split; auto.
Qed.

Lemma read_count_total : forall r count,
  match read_count r count with
  | Panic => False
  | Err _ => True
  | Ok (p, _) => pk_wf p
  end.
Proof.
  intros. unfold read_count. destruct ((count =? 0)%Z || (count <? -1)%Z).
  - unfold pk_wf. cbn. lia.
  - pose proof (read_pages_inv (S (length r)) count (mkR [] [] 0 None 0%Z) r ltac:(lia) ltac:(split; [reflexivity|cbn [a0 rs_already rs_psize]; lia])).
    destruct (read_pages _ _ _ _) as [[s r']|e|]; auto. cbn [bind].
    match goal with |- context [if ?b then _ else _] => destruct b end; auto.
    destruct H. unfold pk_wf. cbn [pk_sizes pk_content]. lia.
Qed.

(** Reading well-formed pages. *)
Lemma content_sum : forall ps, Forall page_ok ps -> sumN (segs_of ps) = lenN (content_of ps).
Proof.
  induction 1; cbn [segs_of content_of flat_map]; auto. fold (segs_of l) (content_of l).
  rewrite sumN_app, lenN_app, IHForall. destruct H as (_ & _ & _ & _ & _ & _ & Hs). cbn [fields f_segs f_content] in Hs. lia.
Qed.

Lemma packets_read_spec : forall ps tail e, Forall page_ok ps -> header_read 0 tail = Err e ->
  packets_read (bytes_of ps ++ tail) = Ok (mkPackets (content_of ps) (fst (delace 0 (segs_of ps))), tail).
Proof.
  intros. unfold packets_read, read_count. cbn [Z.eqb Z.ltb orb].
  change ((-1 =? 0)%Z || (-1 <? -1)%Z) with false. cbn iota.
  destruct (read_pages_nostop (S (length (bytes_of ps ++ tail))) (-1) ps (mkR [] [] 0 None 0%Z) tail e) as (al & nr & ->); auto.
  - rewrite app_length. lia.
  - cbn. lia.
  - now left.
Qed.

Lemma read_count_spec : forall ps tail e n, Forall page_ok ps -> header_read 0 tail = Err e -> (0 < n)%nat ->
  let sizes := fst (delace 0 (segs_of ps)) in
  if (n <=? length sizes)%nat
  then exists p r', read_count (bytes_of ps ++ tail) (Z.of_nat n) = Ok (p, r') /\
         pk_abs p = firstn n (cut_sizes sizes (content_of ps))
  else read_count (bytes_of ps ++ tail) (Z.of_nat n) = Err NotEnoughData.
Proof.
  intros. unfold read_count.
  destruct (Z.eqb_spec (Z.of_nat n) 0); [lia|]. destruct (Z.ltb_spec (Z.of_nat n) (-1)); [lia|]. cbn [orb].
  destruct (Nat.leb_spec n (length sizes)).
  - destruct (read_pages_stop (S (length (bytes_of ps ++ tail))) (Z.of_nat n) ps (mkR [] [] 0 None 0%Z) tail) as (s' & r' & E1 & E2 & E3); auto; try (cbn; lia).
    { rewrite app_length. lia. }
    { cbn [rs_read rs_psize]. fold sizes. lia. }
    cbn [rs_content rs_sizes rs_read rs_psize app] in *. rewrite E1. cbn [bind].
    rewrite Z.sub_0_r, Nat2Z.id in E2, E3. fold sizes in E2, E3.
    rewrite E3, firstn_length. rewrite Nat.min_l by auto. rewrite Z.eqb_refl. cbn [negb]. rewrite andb_false_r.
    eexists _, _. split; [reflexivity|]. unfold pk_abs; cbn [pk_sizes pk_content].
    rewrite E2, cut_sizes_take by lia. apply cut_sizes_firstn.
  - destruct (read_pages_nostop (S (length (bytes_of ps ++ tail))) (Z.of_nat n) ps (mkR [] [] 0 None 0%Z) tail e) as (al & nr & E); auto; try (cbn; lia).
    { rewrite app_length. lia. }
    { right. cbn [rs_read rs_psize]. fold sizes. lia. }
    rewrite E. cbn [bind rs_sizes app rs_psize]. fold sizes.
    destruct (Z.eqb_spec (Z.of_nat n) (-1)); [lia|]. destruct (Z.eqb_spec (Z.of_nat (length sizes)) (Z.of_nat n)); [lia|]. reflexivity.
Qed.
