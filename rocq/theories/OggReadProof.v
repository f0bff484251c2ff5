From Verif Require Import BaseLemmas OggModel OggSpec OggCrcProof OggProof.

Lemma delace_app : forall s1 s2 P,
  delace P (s1 ++ s2) =
    (fst (delace P s1) ++ fst (delace (snd (delace P s1)) s2), snd (delace (snd (delace P s1)) s2)).
Proof.
  induction s1; intros; cbn [app delace].
  - cbn [fst snd app]. destruct (delace P s2); reflexivity.
  - destruct (a <? 255).
    + rewrite IHs1. destruct (delace 0 s1) as [l r]. reflexivity.
    + rewrite IHs1. reflexivity.
Qed.

Lemma delace_sum : forall segs P, sumN (fst (delace P segs)) + snd (delace P segs) = P + sumN segs.
Proof.
  induction segs; intros; cbn [delace sumN fst snd]. lia.
  destruct (a <? 255).
  - specialize (IHsegs 0). destruct (delace 0 segs) as [l r]; cbn [fst snd sumN] in *. lia.
  - rewrite IHsegs. lia.
Qed.

Definition a0 (o : option N) : N := match o with Some a => a | None => 0 end.

Lemma byte_count_ok : forall size al, a0 al <= size ->
  byte_count_to_read size al = Ok (size - a0 al, Some size).
Proof.
  intros. unfold byte_count_to_read. destruct al; cbn [a0] in *.
  - destruct (N.ltb_spec size n); [lia|]. do 3 f_equal. lia.
  - do 3 f_equal. lia.
Qed.

Lemma read_exact_ok : forall n r, n <= lenN r -> read_exact n r = Some (takeN n r, dropN n r).
Proof. intros. unfold read_exact. destruct (N.leb_spec n (lenN r)); auto; lia. Qed.

Lemma takeN_add : forall A n m (l : list A), takeN (n + m) l = takeN n l ++ takeN m (dropN n l).
Proof.
  intros. unfold takeN, dropN. rewrite N2Nat.inj_add. generalize (N.to_nat n) (N.to_nat m). clear. intros n m. revert l.
  induction n; intros; cbn; auto. destruct l; cbn; [now rewrite firstn_nil|]. f_equal. apply IHn.
Qed.

Lemma firstn_nonnil_sum : forall k P segs, (0 < k)%nat -> fst (delace P segs) <> [] ->
  P <= sumN (firstn k (fst (delace P segs))).
Proof.
  intros k P segs. revert P. induction segs; intros; cbn [delace fst] in *. congruence.
  destruct (a <? 255).
  - destruct (delace 0 segs); cbn [fst] in *. destruct k; [lia|]. cbn [firstn sumN]. lia.
  - specialize (IHsegs (P + a) H H0). lia.
Qed.

(** How many packets may still be read: count = -1 means unlimited. *)
Definition no_stop (count nread : Z) (k : nat) : Prop :=
  count = (-1)%Z \/ (0 < count /\ nread + Z.of_nat k < count)%Z.

Lemma read_segs_nostop : forall count segs s r,
  no_stop count (rs_read s) (length (fst (delace (rs_psize s) segs))) -> (0 <= rs_read s)%Z ->
  a0 (rs_already s) <= rs_psize s ->
  rs_psize s + sumN segs - a0 (rs_already s) <= lenN r ->
  let '(l, rest) := delace (rs_psize s) segs in
  read_segs count segs s r = Ok (false,
    (match l with
     | [] => mkR (rs_content s) (rs_sizes s) rest (rs_already s) (rs_read s)
     | _ => mkR (rs_content s ++ takeN (sumN l - a0 (rs_already s)) r) (rs_sizes s ++ l) rest None
              (if (count =? -1)%Z then rs_read s else (rs_read s + Z.of_nat (length l))%Z)
     end),
    match l with [] => r | _ => dropN (sumN l - a0 (rs_already s)) r end).
Proof.
  intros count. induction segs; intros s r Hc Hnn Ha Hr; cbn [delace read_segs].
  - destruct s; reflexivity.
  - cbn [delace] in Hc. cbn [sumN] in Hr.
    destruct (N.ltb_spec a 255).
    + pose proof (delace_sum segs 0) as Hs.
      pose proof (IHsegs (mkR (rs_content s ++ takeN (rs_psize s + a - a0 (rs_already s)) r)
         (rs_sizes s ++ [rs_psize s + a]) 0 None
         (if (count =? -1)%Z then rs_read s else (rs_read s + 1)%Z))
         (dropN (rs_psize s + a - a0 (rs_already s)) r)) as IH.
      cbn [rs_psize rs_already rs_read rs_content rs_sizes] in IH.
      destruct (delace 0 segs) as [l rest] eqn:El. cbn [fst length snd] in *.
      rewrite byte_count_ok by lia. cbn [bind].
      rewrite read_exact_ok by lia. cbn [io bind].
      assert (Hns : ((if (count =? -1)%Z then rs_read s else (rs_read s + 1)%Z) =? count)%Z = false).
      { destruct Hc; destruct (Z.eqb_spec count (-1)); lia. }
      rewrite Hns. cbn [a0] in IH. rewrite IH; clear IH.
      * rewrite <- app_assoc. cbn [app sumN]. destruct l as [|x l].
        -- cbn [sumN length]. rewrite !N.add_0_r. do 4 f_equal.
        -- rewrite N.sub_0_r. rewrite dropN_dropN, <- app_assoc, <- takeN_add.
           replace (rs_psize s + a - a0 (rs_already s) + sumN (x :: l)) with (rs_psize s + a + sumN (x :: l) - a0 (rs_already s)) by lia.
           do 4 f_equal. destruct (count =? -1)%Z; cbn [length]; auto; lia.
      * destruct Hc as [->|[? ?]]; [now left|right]. destruct (Z.eqb_spec count (-1)); lia.
      * destruct (count =? -1)%Z; lia.
      * lia.
      * rewrite lenN_dropN. lia.
    + specialize (IHsegs (mkR (rs_content s) (rs_sizes s) (rs_psize s + a) (rs_already s) (rs_read s)) r).
      cbn [rs_psize rs_already rs_read rs_content rs_sizes] in IHsegs.
      apply IHsegs; auto; lia.
Qed.

Lemma read_segs_stop : forall count segs s r,
  (0 < count)%Z -> (0 <= rs_read s < count)%Z ->
  (count <= rs_read s + Z.of_nat (length (fst (delace (rs_psize s) segs))))%Z ->
  a0 (rs_already s) <= rs_psize s ->
  rs_psize s + sumN segs - a0 (rs_already s) <= lenN r ->
  let l := firstn (Z.to_nat (count - rs_read s)) (fst (delace (rs_psize s) segs)) in
  read_segs count segs s r = Ok (true,
     mkR (rs_content s ++ takeN (sumN l - a0 (rs_already s)) r) (rs_sizes s ++ l) 0 None count,
     dropN (sumN l - a0 (rs_already s)) r).
Proof.
  intros count. induction segs; intros s r Hc Hn Hlen Ha Hr; cbn [delace read_segs].
  - cbn in Hlen. lia.
  - cbn [delace] in Hlen. cbn [sumN] in Hr.
    destruct (N.ltb_spec a 255).
    + pose proof (delace_sum segs 0) as Hs.
      pose proof (IHsegs (mkR (rs_content s ++ takeN (rs_psize s + a - a0 (rs_already s)) r)
         (rs_sizes s ++ [rs_psize s + a]) 0 None
         (if (count =? -1)%Z then rs_read s else (rs_read s + 1)%Z))
         (dropN (rs_psize s + a - a0 (rs_already s)) r)) as IH.
      cbn [rs_psize rs_already rs_read rs_content rs_sizes] in IH.
      destruct (delace 0 segs) as [l rest] eqn:El. cbn [fst length snd] in *.
      rewrite byte_count_ok by lia. cbn [bind].
      rewrite read_exact_ok by lia. cbn [io bind].
      destruct (Z.eqb_spec count (-1)); [lia|].
      replace (Z.to_nat (count - rs_read s)) with (S (Z.to_nat (count - (rs_read s + 1)))) by lia.
      cbn [firstn sumN].
      destruct (Z.eqb_spec (rs_read s + 1) count).
      * subst count. replace (Z.to_nat (rs_read s + 1 - (rs_read s + 1))) with O by lia.
        cbn [firstn sumN]. rewrite N.add_0_r. reflexivity.
      * cbn [a0] in IH. rewrite IH; try lia.
        -- rewrite <- app_assoc. cbn [app]. rewrite N.sub_0_r, dropN_dropN, <- app_assoc, <- takeN_add.
           set (q := sumN (firstn (Z.to_nat (count - (rs_read s + 1))) l)).
           replace (rs_psize s + a - a0 (rs_already s) + q) with (rs_psize s + a + q - a0 (rs_already s)) by lia.
           reflexivity.
        -- rewrite lenN_dropN. lia.
    + specialize (IHsegs (mkR (rs_content s) (rs_sizes s) (rs_psize s + a) (rs_already s) (rs_read s)) r).
      cbn [rs_psize rs_already rs_read rs_content rs_sizes] in IHsegs.
      apply IHsegs; auto; lia.
Qed.

Definition segs_of (ps : list page) : list N := flat_map pg_segs ps.
Definition content_of (ps : list page) : bytes := flat_map pg_content ps.
Definition bytes_of (ps : list page) : bytes := flat_map as_bytes ps.

Lemma as_bytes_len : forall p, (27 <= length (as_bytes p))%nat.
Proof. intros. unfold as_bytes. rewrite !app_length. cbn. lia. Qed.

Lemma read_pages_nostop : forall fuel count ps s tail e,
  (length (bytes_of ps) < fuel)%nat ->
  Forall page_ok ps -> header_read 0 tail = Err e ->
  a0 (rs_already s) = rs_psize s -> (0 <= rs_read s)%Z ->
  no_stop count (rs_read s) (length (fst (delace (rs_psize s) (segs_of ps)))) ->
  exists al nr, read_pages fuel count s (bytes_of ps ++ tail) =
    Ok (mkR (rs_content s ++ content_of ps) (rs_sizes s ++ fst (delace (rs_psize s) (segs_of ps)))
          (snd (delace (rs_psize s) (segs_of ps))) al nr, tail).
Proof.
  induction fuel; intros count ps s tail e Hf Hok Ht Ha Hnn Hns; [lia|].
  cbn [read_pages]. destruct ps as [|p ps].
  - cbn [bytes_of flat_map app segs_of content_of delace fst snd] in *. rewrite Ht.
    exists (rs_already s), (rs_read s). rewrite !app_nil_r. destruct s; reflexivity.
  - inversion Hok; subst. cbn [bytes_of segs_of content_of flat_map] in *. fold (bytes_of ps) (segs_of ps) (content_of ps) in *.
    rewrite <- app_assoc, header_read_ok by auto. cbn [pg_segs].
    pose proof H1 as (_ & _ & _ & _ & _ & _ & Hsum). cbn in Hsum.
    rewrite delace_app in Hns |- *. cbn [fst snd] in Hns |- *. rewrite app_length in Hns.
    pose proof (read_segs_nostop count (pg_segs p) s (pg_content p ++ bytes_of ps ++ tail)) as RS.
    pose proof (delace_sum (pg_segs p) (rs_psize s)) as DS.
    destruct (delace (rs_psize s) (pg_segs p)) as [l rest] eqn:El. cbn [fst snd] in *.
    rewrite RS; clear RS.
    2: { destruct Hns as [->|[? ?]]; [now left|right; lia]. }
    2: auto. 2: lia. 2: rewrite !lenN_app; lia.
    cbn [bind].
    assert (Hlen : (length (bytes_of ps) < fuel)%nat).
    { rewrite app_length in Hf. pose proof (as_bytes_len p). lia. }
    destruct l as [|x l].
    + cbn [rs_psize rs_already rs_content rs_sizes rs_read]. cbn [sumN] in DS.
      destruct (N.eqb_spec rest 0); cbn [negb].
      * assert (lenN (pg_content p) = 0) by lia. apply lenN_0 in H. rewrite H. cbn [app].
        edestruct (IHfuel count ps (mkR (rs_content s) (rs_sizes s) rest (rs_already s) (rs_read s)) tail e) as (al & nr & IH);
          [auto|auto|auto|cbn; lia|auto| |].
        { cbn [rs_psize rs_read]. destruct Hns as [->|[? ?]]; [now left|right; cbn [length] in *; lia]. }
        cbn [rs_content rs_sizes rs_psize] in IH. exists al, nr. rewrite IH. reflexivity.
      * rewrite byte_count_ok by lia. cbn [bind].
        rewrite read_exact_app by lia. cbn [io bind].
        edestruct (IHfuel count ps (mkR (rs_content s ++ pg_content p) (rs_sizes s) rest (Some rest) (rs_read s)) tail e) as (al & nr & IH);
          [auto|auto|auto|reflexivity|auto| |].
        { cbn [rs_psize rs_read]. destruct Hns as [->|[? ?]]; [now left|right; cbn [length] in *; lia]. }
        cbn [rs_content rs_sizes rs_psize] in IH. exists al, nr. rewrite IH. rewrite app_assoc. reflexivity.
    + cbn [rs_psize rs_already rs_content rs_sizes rs_read].
      set (nr0 := if (count =? -1)%Z then rs_read s else (rs_read s + Z.of_nat (length (x :: l)))%Z) in *.
      assert (Hns' : forall st, rs_read st = nr0 -> rs_psize st = rest ->
          no_stop count (rs_read st) (length (fst (delace (rs_psize st) (segs_of ps)))) /\ (0 <= rs_read st)%Z).
      { intros st Hst ->. rewrite Hst. unfold nr0. destruct Hns as [->|[? ?]]; [split; [now left|exact Hnn]|].
        destruct (Z.eqb_spec count (-1)); [lia|]. split; [right|]; lia. }
      assert (Hge : rs_psize s <= sumN (x :: l)).
      { pose proof (firstn_nonnil_sum (length (x :: l)) (rs_psize s) (pg_segs p)) as F. rewrite El in F.
        cbn [fst] in F. rewrite firstn_all in F. apply F; [cbn [length]; lia|discriminate]. }
      remember (sumN (x :: l) - a0 (rs_already s)) as k eqn:Hk.
      destruct (N.eqb_spec rest 0); cbn [negb].
      * assert (k = lenN (pg_content p)) by lia. rewrite takeN_app, dropN_app by auto.
        edestruct (IHfuel count ps (mkR (rs_content s ++ pg_content p) (rs_sizes s ++ x :: l) rest None nr0) tail e) as (al & nr & IH);
          [auto|auto|auto|cbn; lia|eapply Hns'; reflexivity|eapply Hns'; reflexivity|].
        cbn [rs_content rs_sizes rs_psize] in IH. exists al, nr. rewrite IH. rewrite <- !app_assoc. reflexivity.
      * rewrite byte_count_ok by (cbn; lia). cbn [bind a0].
        rewrite dropN_app_le by lia. rewrite takeN_app_le by lia.
        rewrite read_exact_app by (rewrite lenN_dropN; lia). cbn [io bind].
        rewrite <- (app_assoc (rs_content s)), takeN_dropN.
        edestruct (IHfuel count ps (mkR (rs_content s ++ pg_content p) (rs_sizes s ++ x :: l) rest (Some rest) nr0) tail e) as (al & nr & IH);
          [auto|auto|auto|reflexivity|eapply Hns'; reflexivity|eapply Hns'; reflexivity|].
        cbn [rs_content rs_sizes rs_psize] in IH. exists al, nr. rewrite IH. rewrite <- !app_assoc. reflexivity.
Qed.

Lemma read_pages_stop : forall fuel count ps s tail,
  (length (bytes_of ps) < fuel)%nat ->
  Forall page_ok ps ->
  a0 (rs_already s) = rs_psize s -> (0 < count)%Z -> (0 <= rs_read s < count)%Z ->
  (count <= rs_read s + Z.of_nat (length (fst (delace (rs_psize s) (segs_of ps)))))%Z ->
  let l := firstn (Z.to_nat (count - rs_read s)) (fst (delace (rs_psize s) (segs_of ps))) in
  exists s' r', read_pages fuel count s (bytes_of ps ++ tail) = Ok (s', r') /\
    rs_content s' = rs_content s ++ takeN (sumN l - rs_psize s) (content_of ps) /\ rs_sizes s' = rs_sizes s ++ l.
Proof.
  induction fuel; intros count ps s tail Hf Hok Ha Hc Hn Hlen; [lia|].
  cbn [read_pages]. destruct ps as [|p ps].
  - cbn in Hlen. lia.
  - inversion Hok; subst. cbn [bytes_of segs_of content_of flat_map] in *. fold (bytes_of ps) (segs_of ps) (content_of ps) in *.
    rewrite <- app_assoc, header_read_ok by auto. cbn [pg_segs].
    pose proof H1 as (_ & _ & _ & _ & _ & _ & Hsum). cbn [fields f_segs f_content] in Hsum.
    rewrite delace_app in Hlen |- *. cbn [fst snd] in Hlen |- *. rewrite app_length in Hlen.
    pose proof (delace_sum (pg_segs p) (rs_psize s)) as DS.
    assert (Hflen : (length (bytes_of ps) < fuel)%nat).
    { rewrite app_length in Hf. pose proof (as_bytes_len p). lia. }
    destruct (Z_le_gt_dec count (rs_read s + Z.of_nat (length (fst (delace (rs_psize s) (pg_segs p)))))) as [Hle|Hgt].
    + (* stops in this page *)
      rewrite read_segs_stop; auto; try lia. 2: rewrite !lenN_app; lia.
      cbn [bind]. eexists _, _. split; [reflexivity|]. cbn [rs_content rs_sizes].
      rewrite firstn_app. 
      replace (Z.to_nat (count - rs_read s) - length (fst (delace (rs_psize s) (pg_segs p))))%nat with O by lia.
      rewrite firstn_O, app_nil_r. rewrite Ha. split; auto. f_equal.
      set (l1 := firstn (Z.to_nat (count - rs_read s)) (fst (delace (rs_psize s) (pg_segs p)))).
      assert (sumN l1 <= sumN (fst (delace (rs_psize s) (pg_segs p)))).
      { unfold l1. rewrite <- (firstn_skipn (Z.to_nat (count - rs_read s)) (fst (delace (rs_psize s) (pg_segs p)))) at 2.
        rewrite sumN_app. lia. }
      rewrite !takeN_app_le by lia. reflexivity.
    + pose proof (read_segs_nostop count (pg_segs p) s (pg_content p ++ bytes_of ps ++ tail)) as RS.
      pose proof (firstn_nonnil_sum (length (fst (delace (rs_psize s) (pg_segs p)))) (rs_psize s) (pg_segs p)) as Hge.
      rewrite firstn_all in Hge.
      destruct (delace (rs_psize s) (pg_segs p)) as [l rest] eqn:El. cbn [fst snd] in *.
      rewrite RS; clear RS.
      2: { right. lia. }
      2: lia. 2: lia. 2: rewrite !lenN_app; lia.
      cbn [bind]. rewrite firstn_app. rewrite (firstn_all2 l) by lia. rewrite sumN_app.
      set (nr0 := (rs_read s + Z.of_nat (length l))%Z).
      replace (Z.to_nat (count - rs_read s) - length l)%nat with (Z.to_nat (count - nr0)) by lia.
      destruct l as [|x l].
      * cbn [rs_psize rs_already rs_content rs_sizes rs_read]. cbn [sumN] in *. cbn [length] in *.
        assert (Enr : nr0 = rs_read s) by (unfold nr0; lia). rewrite Enr in *. clear nr0 Enr.
        destruct (N.eqb_spec rest 0); cbn [negb].
        -- assert (lenN (pg_content p) = 0) by lia. apply lenN_0 in H. rewrite H. cbn [app].
           edestruct (IHfuel count ps (mkR (rs_content s) (rs_sizes s) rest (rs_already s) (rs_read s)) tail) as (s' & r' & IH1 & IH2 & IH3); auto.
           { cbn. lia. }
           cbn [rs_content rs_sizes rs_psize rs_read] in *. exists s', r'. split; [exact IH1|]. split; auto.
           rewrite IH2. do 2 f_equal. lia.
        -- rewrite byte_count_ok by lia. cbn [bind].
           rewrite read_exact_app by lia. cbn [io bind].
           edestruct (IHfuel count ps (mkR (rs_content s ++ pg_content p) (rs_sizes s) rest (Some rest) (rs_read s)) tail) as (s' & r' & IH1 & IH2 & IH3); auto.
           cbn [rs_content rs_sizes rs_psize rs_read] in *. exists s', r'. split; [exact IH1|]. split; auto.
           rewrite IH2, <- app_assoc. f_equal.
           set (l2 := firstn (Z.to_nat (count - rs_read s)) (fst (delace rest (segs_of ps)))) in *.
           assert (rest <= sumN l2). { apply firstn_nonnil_sum. lia. intro Z. rewrite Z in Hlen. cbn in Hlen. lia. }
           rewrite takeN_app_ge by lia. do 2 f_equal. lia.
      * cbn [rs_psize rs_already rs_content rs_sizes rs_read].
        destruct (Z.eqb_spec count (-1)); [lia|]. fold nr0.
        specialize (Hge ltac:(cbn [length]; lia) ltac:(discriminate)).
        remember (sumN (x :: l) - a0 (rs_already s)) as k eqn:Hk.
        set (l2 := firstn (Z.to_nat (count - nr0)) (fst (delace rest (segs_of ps)))) in *.
        assert (Hl2 : rest <= sumN l2).
        { apply firstn_nonnil_sum. unfold nr0. cbn [length] in *. lia. intro Z. rewrite Z in Hlen. cbn [length] in *. lia. }
        destruct (N.eqb_spec rest 0); cbn [negb].
        -- assert (k = lenN (pg_content p)) by lia. rewrite takeN_app, dropN_app by auto.
           edestruct (IHfuel count ps (mkR (rs_content s ++ pg_content p) (rs_sizes s ++ x :: l) rest None nr0) tail) as (s' & r' & IH1 & IH2 & IH3);
             [auto|auto|cbn; lia|auto|cbn [rs_read]; unfold nr0; lia|cbn [rs_read rs_psize]; unfold nr0; lia|].
           cbn [rs_content rs_sizes rs_psize rs_read] in *. exists s', r'. split; [exact IH1|].
           rewrite IH2, IH3, <- !app_assoc. split; auto. f_equal. fold l2.
           rewrite takeN_app_ge by lia. do 2 f_equal. lia.
        -- rewrite byte_count_ok by (cbn; lia). cbn [bind a0].
           rewrite dropN_app_le by lia. rewrite takeN_app_le by lia.
           rewrite read_exact_app by (rewrite lenN_dropN; lia). cbn [io bind].
           rewrite <- (app_assoc (rs_content s)), takeN_dropN.
           edestruct (IHfuel count ps (mkR (rs_content s ++ pg_content p) (rs_sizes s ++ x :: l) rest (Some rest) nr0) tail) as (s' & r' & IH1 & IH2 & IH3);
             [auto|auto|reflexivity|auto|cbn [rs_read]; unfold nr0; lia|cbn [rs_read rs_psize]; unfold nr0; lia|].
           cbn [rs_content rs_sizes rs_psize rs_read] in *. exists s', r'. split; [exact IH1|].
           rewrite IH2, IH3, <- !app_assoc. split; auto. f_equal. fold l2.
           rewrite takeN_app_ge by lia. do 2 f_equal. lia.
Qed.
