From Verif Require Import BaseLemmas Str StrLemmas TimestampModel TimestampSpec TimestampProof TextProof.

Definition numv (o : option N) : N := match o with Some n => n | None => 0 end.

(** The digit loop never overflows a u16 on at most four bytes. *)
Lemma seg_loop_total : forall l m b num c k, numv num < 10 ^ k -> k + lenN l <= 4 ->
  match seg_loop l m b num c with
  | Ok (num', c') => c <= c' <= c + lenN l /\ numv num' < 10 ^ (k + lenN l) /\ (num' = None -> num = None) /\
                     (is_strict m = true -> l <> [] -> num' <> None) /\ (num' <> None -> num <> None \/ c < c')
  | Err _ => True
  | Panic => False
  end.
Proof.
  induction l as [|i l IH]; intros m b num c k Hn Hk; cbn [seg_loop].
  - change (lenN (@nil N)) with 0. rewrite !N.add_0_r. repeat split; auto; try lia; congruence.
  - rewrite lenN_cons in *.
    assert (Pk : 10 ^ k < 10 ^ (k + (1 + lenN l))) by (apply N.pow_lt_mono_r; lia).
    destruct (i =? 32) eqn:E1.
    + destruct (is_strict m) eqn:Es; auto.
      specialize (IH m b num (c + 1) (k + 1)). 
      assert (A : numv num < 10 ^ (k + 1)) by (eapply N.lt_trans; [exact Hn|apply N.pow_lt_mono_r; lia]).
      specialize (IH A ltac:(lia)). destruct (seg_loop l m b num (c + 1)) as [[num' c']| |]; auto.
      destruct IH as (I1 & I2 & I3 & I4 & I5). replace (k + 1 + lenN l) with (k + (1 + lenN l)) in I2 by lia.
      repeat split; auto; try lia; try congruence.
      all: intros; destruct (I5 H); [left; auto|right; lia].
    + destruct (negb (is_digit i)) eqn:E2.
      * destruct (b && mem i SEPARATORS && negb (is_strict m)) eqn:E3; auto.
        apply andb_prop in E3 as [_ E3]. repeat split; auto; try lia.
        all: intros; rewrite H in E3; discriminate.
      * apply negb_false_iff in E2. unfold is_digit in E2. fold (numv num). cbn zeta.
        assert (B : numv num * 10 + (i - 48) < 10 ^ (k + 1)).
        { rewrite N.add_1_r, N.pow_succ_r'. lia. }
        assert (C : 10 ^ (k + 1) <= 10 ^ 4) by (apply N.pow_le_mono_r; lia).
        change (10 ^ 4) with 10000 in C. unfold U16_MAX.
        remember (numv num * 10 + (i - 48)) as v. replace (65535 <? v) with false by lia.
        specialize (IH m b (Some v) (c + 1) (k + 1) B ltac:(lia)).
        destruct (seg_loop l m b (Some v) (c + 1)) as [[num' c']| |]; auto.
        destruct IH as (I1 & I2 & I3 & I4 & I5). replace (k + 1 + lenN l) with (k + (1 + lenN l)) in I2 by lia.
        repeat split; auto; try lia.
        -- intros. specialize (I3 H). discriminate.
        -- intros _ _ Hnone. specialize (I3 Hnone). discriminate.
Qed.

Lemma seg_body_total : forall size content b m, size <= 4 -> 0 < size ->
  match seg_body size content b m with
  | Ok (n, c, r) => n < 10 ^ size /\ c <= size /\ (c <> 0 -> exists u, content = u ++ r /\ lenN u = c) /\ (is_strict m = true -> c <> 0)
  | Err _ => True
  | Panic => False
  end.
Proof.
  intros. unfold seg_body. assert (P0 : 0 < 10 ^ size) by (apply N.neq_0_lt_0; apply N.pow_nonzero; lia).
  destruct (lenN content <? size) eqn:E.
  { destruct (is_strict m); auto. repeat split; auto; try lia.  }
  pose proof (seg_loop_total (takeN size content) m b None 0 0) as T. cbn [numv] in T.
  rewrite lenN_takeN in T. replace (N.min size (lenN content)) with size in T by lia. rewrite N.add_0_l in T.
  specialize (T ltac:(reflexivity) H).
  destruct (seg_loop (takeN size content) m b None 0) as [[num c]| |]; auto. cbn [bind].
  destruct T as (I1 & I2 & I3 & I4 & I5). destruct num as [n|].
  - replace (lenN content <? c) with false by lia. destruct (I5 ltac:(congruence)) as [Hc|Hc]; [congruence|].
    repeat split; auto; try lia.
    intros. exists (takeN c content). split. now rewrite takeN_dropN. rewrite lenN_takeN. lia.
  - destruct (is_strict m) eqn:Es.
    + apply (I4 eq_refl); auto. intro N0. apply (f_equal lenN) in N0. rewrite lenN_takeN in N0. change (lenN (@nil N)) with 0 in N0. lia.
    + repeat split; auto; try lia; try congruence.
Qed.

Lemma segment_total : forall size content sep m, size <= 4 -> 0 < size ->
  match segment size content sep m with
  | Ok (n, c, r) => n < 10 ^ size /\ c <= size
  | Err _ => True
  | Panic => False
  end.
Proof.
  intros. assert (P0 : 0 < 10 ^ size) by (apply N.neq_0_lt_0; apply N.pow_nonzero; lia).
  unfold segment. destruct content as [|x l]. { split; lia. }
  destruct sep as [ss|].
  - destruct (position x ss). destruct ((0 <? n) && is_strict m); auto.
    pose proof (seg_body_total size l true m H H0). destruct (seg_body size l true m) as [[[? ?] ?]| |]; tauto.
    destruct (is_strict m); auto. split; lia.
  - pose proof (seg_body_total size (x :: l) false m H H0). destruct (seg_body size (x :: l) false m) as [[[? ?] ?]| |]; tauto.
Qed.

(** Every result is representable. *)
Lemma fields_total : forall y r seps m, y <= 9999 ->
  match ts_fields y r seps m with Ok t => representable t /\ ts_year t = y | Err _ => True | Panic => False end.
Proof.
  intros. unfold ts_fields.
  assert (S : forall r s, match segment 2 r s m with Ok (n, c, r) => n <= 99 | Err _ => True | Panic => False end).
  { intros r0 s0. pose proof (segment_total 2 r0 s0 m ltac:(lia) ltac:(lia)). destruct (segment 2 r0 s0 m) as [[[? ?] ?]| |]; auto.
    change (10 ^ 2) with 100 in H0. lia. }
  repeat match goal with
  | |- context [segment 2 ?r ?s m] =>
      let X := fresh in pose proof (S r s) as X; destruct (segment 2 r s m) as [[[? ?] ?]| |]; cbn [bind]; auto;
      match goal with |- context [?c =? 0] => destruct (c =? 0) end
  end.
  all: unfold representable, subfields; cbn [ts_year ts_month ts_day ts_hour ts_minute ts_second chain];
       rewrite ?N.mod_small by lia; repeat split; auto; try lia; repeat constructor.
Qed.

Lemma parse_total : forall r m,
  match ts_parse r m with Ok (Some t) => representable t | Ok None => True | Err _ => True | Panic => False end.
Proof.
  intros. unfold ts_parse. destruct r as [|c r]. destruct (is_strict m); auto.
  destruct (if is_strict m then Some (c, r) else skip_ws c r) as [[c' r']|]; auto.
  unfold ts_content. remember (c' :: takeN 18 r') as content. clear Heqcontent.
  pose proof (segment_total 4 content None m ltac:(lia) ltac:(lia)) as S.
  destruct (segment 4 content None m) as [[[y k] r2]| |]; cbn [bind]; auto.
  change (10 ^ 4) with 10000 in S. destruct (negb (k =? 4)). destruct (is_strict m); auto.
  destruct r2.
  - split; cbn. lia. repeat constructor.
  - match goal with |- context [ts_fields y ?rr ?ss m] => pose proof (fields_total y rr ss m ltac:(lia)) as F; destruct (ts_fields y rr ss m) end; cbn [bind]; tauto.
Qed.

(** verification = limits + chain *)
Lemma verify_iff : forall t, ts_verify t = Ok tt <-> in_limits t.
Proof.
  intros [y mo d h mi s]. unfold ts_verify, in_limits, subfields.
  cbn [ts_year ts_month ts_day ts_hour ts_minute ts_second].
  destruct (9999 <? y) eqn:Y. { split; [discriminate|]. intros (A & _). lia. }
  destruct mo as [mo|], d as [d|], h as [h|], mi as [mi|], s as [s|]; cbn [verify_field bind opt_le chain];
  repeat match goal with |- context [?a <=? ?b] => let E := fresh in destruct (a <=? b) eqn:E; cbn [bind] end;
  (split; [try discriminate; intros _; repeat split; try lia; repeat constructor
          |intros; try reflexivity; exfalso;
           repeat match goal with
             | H : _ /\ _ |- _ => destruct H
             | H : Forall _ (_ :: _) |- _ => inversion H; subst; clear H
             | H : Some _ = None |- _ => discriminate
             end; try lia; try discriminate]).
Qed.

Lemma limits_representable : forall t, in_limits t -> representable t.
Proof. intros t H. unfold in_limits, representable in *. tauto. Qed.

(** Strict soundness. *)
Lemma seg_loop_strict : forall l b num c num' c', seg_loop l Strict b num c = Ok (num', c') ->
  Forall (fun x => is_digit x = true) l /\ c' = c + lenN l /\
  (l <> [] -> num' = Some (dec_val (numv num) l)) /\ (l = [] -> num' = num).
Proof.
  induction l as [|i l IH]; intros b num c num' c' H; cbn [seg_loop] in H.
  - inv H. repeat split; auto. change (lenN (@nil N)) with 0. lia. congruence.
  - cbn [is_strict negb] in H. rewrite andb_false_r in H. destruct (i =? 32) eqn:E1; [discriminate|].
    destruct (negb (is_digit i)) eqn:E2; [discriminate|]. apply negb_false_iff in E2. cbn zeta in H.
    match type of H with (if ?b then _ else _) = _ => destruct b; [discriminate|] end.
    apply IH in H as (A & B & C & D). repeat split.
    + constructor; auto.
    + rewrite lenN_cons. lia.
    + intros _. destruct l as [|j l].
      * rewrite D by auto. reflexivity.
      * rewrite C by discriminate. reflexivity.
    + congruence.
Qed.

Lemma digits2 : forall a b, is_digit a = true -> is_digit b = true -> [a; b] = d2 (dec_val 0 [a; b]) /\ dec_val 0 [a; b] <= 99.
Proof.
  intros a b A B. unfold is_digit in *. unfold dec_val, d2. cbn [fold_left]. rewrite N.mul_0_l, N.add_0_l.
  split; [|lia]. f_equal; [|f_equal].
  - replace ((a - 48) * 10 + (b - 48)) with (b - 48 + (a - 48) * 10) by lia. rewrite N.div_add by lia. rewrite N.div_small by lia. lia.
  - replace ((a - 48) * 10 + (b - 48)) with (b - 48 + (a - 48) * 10) by lia. rewrite N.mod_add by lia. rewrite N.mod_small by lia. lia.
Qed.
Lemma digits4 : forall a b c d, is_digit a = true -> is_digit b = true -> is_digit c = true -> is_digit d = true ->
  [a; b; c; d] = d4 (dec_val 0 [a; b; c; d]) /\ dec_val 0 [a; b; c; d] <= 9999.
Proof.
  intros a b c d A B C D. destruct (digits2 a b A B) as [E1 L1]. destruct (digits2 c d C D) as [E2 L2].
  assert (E : dec_val 0 [a; b; c; d] = dec_val 0 [c; d] + dec_val 0 [a; b] * 100).
  { unfold dec_val. cbn [fold_left]. lia. }
  unfold d4. rewrite E. rewrite N.div_add, N.mod_add by lia. rewrite N.div_small, N.mod_small, N.add_0_l by lia.
  rewrite <- E1, <- E2. split. reflexivity. lia.
Qed.

Lemma seg_body_strict : forall size content b n c r, (size = 2 \/ size = 4) ->
  seg_body size content b Strict = Ok (n, c, r) ->
  c = size /\ content = (if size =? 2 then d2 n else d4 n) ++ r /\ n < 10 ^ size.
Proof.
  intros size content b n c r Hs H. unfold seg_body in H. destruct (lenN content <? size) eqn:E; [discriminate|].
  destruct (seg_loop (takeN size content) Strict b None 0) as [[num k]| |] eqn:L; try discriminate. cbn [bind] in H.
  apply seg_loop_strict in L as (F & K & V & _). rewrite lenN_takeN in K. replace (N.min size (lenN content)) with size in K by lia.
  assert (NE : takeN size content <> []).
  { intro Z. apply (f_equal lenN) in Z. rewrite lenN_takeN in Z. change (lenN (@nil N)) with 0 in Z. lia. }
  specialize (V NE). subst num. cbn [numv] in H. destruct (lenN content <? k) eqn:E2; [discriminate|]. 
  injection H as H1 H2 H3. rewrite N.add_0_l in K. subst k. subst c r n.
  assert (TL : lenN (takeN size content) = size) by (rewrite lenN_takeN; lia).
  split; auto. destruct Hs; subst size.
  - change (2 =? 2) with true. cbn iota.
    destruct (takeN 2 content) as [|x [|y [|z l]]] eqn:T; try (unfold lenN in TL; cbn [length] in TL; lia).
    repeat match goal with G : Forall _ (_ :: _) |- _ => apply Forall_cons_iff in G; destruct G end. destruct (digits2 x y) as [D1 D2]; auto. split. { rewrite <- D1, <- T, takeN_dropN. auto. }
    change (10 ^ 2) with 100. eapply N.le_lt_trans; [exact D2|reflexivity].
  - change (4 =? 2) with false. cbn iota.
    destruct (takeN 4 content) as [|x [|y [|z [|w [|v l]]]]] eqn:T; try (unfold lenN in TL; cbn [length] in TL; lia).
    repeat match goal with G : Forall _ (_ :: _) |- _ => apply Forall_cons_iff in G; destruct G end.
    destruct (digits4 x y z w) as [D1 D2]; auto. split. { rewrite <- D1, <- T, takeN_dropN. auto. }
    eapply N.le_lt_trans; [exact D2|reflexivity].
Qed.

Lemma segment_strict : forall content (s : option N) l n c r,
  segment 2 content (match s with Some x => Some (x :: l) | None => None end) Strict = Ok (n, c, r) ->
  ~ In (match s with Some x => x | None => 0 end) l ->
  (content = [] /\ c = 0 /\ r = []) \/
  (c = 2 /\ n <= 99 /\ content = match s with Some x => [x] | None => [] end ++ d2 n ++ r).
Proof.
  intros content s l n c r H NI. destruct content as [|x content]. { cbn in H. inv H. auto. }
  right. cbn [segment] in H. destruct s as [s|].
  - cbn [position] in H. destruct (s =? x) eqn:E.
    + cbn [andb N.ltb N.compare] in H. apply seg_body_strict in H as (A & B & C); auto. apply N.eqb_eq in E. subst.
      change (10 ^ 2) with 100 in C. repeat split; auto. lia.
    + destruct (position x l). 2: discriminate. replace (0 <? n0 + 1) with true in H by lia. discriminate.
  - apply seg_body_strict in H as (A & B & C); auto. change (10 ^ 2) with 100 in C. repeat split; auto. lia.
Qed.

Lemma fields_strict : forall y r seps t, ts_fields y r seps Strict = Ok t -> r <> [] ->
  exists tail, r = join (sepl seps) (present (subfields t)) ++ tail /\ (ts_second t = None -> tail = []).
Proof.
  intros y r seps t H NE. unfold ts_fields in H.
  assert (S1 : forall r n c r', segment 2 r (if seps then Some [45;46] else None) Strict = Ok (n, c, r') ->
    (r = [] /\ c = 0 /\ r' = []) \/ (c = 2 /\ n <= 99 /\ r = (if seps then [45] else []) ++ d2 n ++ r')).
  { intros r0 n c r' S. destruct seps.
    - apply (segment_strict r0 (Some 45) [46]) in S; auto. cbn. lia.
    - apply (segment_strict r0 None []) in S; auto. }
  assert (S2 : forall r n c r', segment 2 r (if seps then Some [58] else None) Strict = Ok (n, c, r') ->
    (r = [] /\ c = 0 /\ r' = []) \/ (c = 2 /\ n <= 99 /\ r = (if seps then [58] else []) ++ d2 n ++ r')).
  { intros r0 n c r' S. destruct seps.
    - apply (segment_strict r0 (Some 58) []) in S; auto.
    - apply (segment_strict r0 None []) in S; auto. }
  assert (S3 : forall r n c r', segment 2 r (Some [84]) Strict = Ok (n, c, r') ->
    (r = [] /\ c = 0 /\ r' = []) \/ (c = 2 /\ n <= 99 /\ r = [84] ++ d2 n ++ r')).
  { intros r0 n c r' S. apply (segment_strict r0 (Some 84) []) in S; auto. }
  assert (SL : sepl seps = [if seps then [45] else []; if seps then [45] else []; [84]; if seps then [58] else []; if seps then [58] else []]) by (destruct seps; reflexivity).
  rewrite SL. clear SL.
  destruct (segment 2 r _ Strict) as [[[mo c1] r1]| |] eqn:E1 in H; try discriminate. cbn [bind] in H.
  apply S1 in E1 as [(A & _)|(-> & L1 & ->)]; [congruence|]. change (2 =? 0) with false in H. cbn iota in H.
  destruct (segment 2 r1 _ Strict) as [[[d c2] r2]| |] eqn:E2 in H; try discriminate. cbn [bind] in H.
  apply S1 in E2 as [(-> & -> & ->)|(-> & L2 & ->)].
  { change (0 =? 0) with true in H. cbn iota in H. injection H as <-. exists []. rewrite N.mod_small by lia. unfold subfields. cbn [ts_month ts_day ts_hour ts_minute ts_second present join]. rewrite !app_nil_r. auto. }
  change (2 =? 0) with false in H. cbn iota in H.
  destruct (segment 2 r2 _ Strict) as [[[h c3] r3]| |] eqn:E3 in H; try discriminate. cbn [bind] in H.
  apply S3 in E3 as [(-> & -> & ->)|(-> & L3 & ->)].
  { change (0 =? 0) with true in H. cbn iota in H. injection H as <-. exists []. rewrite !N.mod_small by lia. unfold subfields. cbn [ts_month ts_day ts_hour ts_minute ts_second present join]. rewrite !app_nil_r. auto. }
  change (2 =? 0) with false in H. cbn iota in H.
  destruct (segment 2 r3 _ Strict) as [[[mi c4] r4]| |] eqn:E4 in H; try discriminate. cbn [bind] in H.
  apply S2 in E4 as [(-> & -> & ->)|(-> & L4 & ->)].
  { change (0 =? 0) with true in H. cbn iota in H. injection H as <-. exists []. rewrite !N.mod_small by lia. unfold subfields. cbn [ts_month ts_day ts_hour ts_minute ts_second present join]. rewrite !app_nil_r. auto. }
  change (2 =? 0) with false in H. cbn iota in H.
  destruct (segment 2 r4 _ Strict) as [[[s c5] r5]| |] eqn:E5 in H; try discriminate. cbn [bind] in H.
  apply S2 in E5 as [(-> & -> & ->)|(-> & L5 & ->)].
  { change (0 =? 0) with true in H. cbn iota in H. injection H as <-. exists []. rewrite !N.mod_small by lia. unfold subfields. cbn [ts_month ts_day ts_hour ts_minute ts_second present join]. rewrite !app_nil_r. auto. }
  change (2 =? 0) with false in H. cbn iota in H. injection H as <-. exists r5. rewrite !N.mod_small by lia.
  unfold subfields. cbn [ts_month ts_day ts_hour ts_minute ts_second present join]. rewrite <- !app_assoc. cbn [app]. split; auto. discriminate.
Qed.

Lemma parse_strict : forall bs t, ts_parse bs Strict = Ok (Some t) ->
  exists b tail, takeN 19 bs = text b t ++ tail /\ (ts_second t = None -> tail = []).
Proof.
  intros bs t H. unfold ts_parse in H. destruct bs as [|c bs]; [discriminate|]. cbn [is_strict] in H.
  change (c :: takeN 18 bs) with (takeN 19 (c :: bs)) in H. remember (takeN 19 (c :: bs)) as content.
  assert (NE : content <> []) by (subst; discriminate). clear Heqcontent.
  unfold ts_content in H. destruct (segment 4 content None Strict) as [[[y k] r]| |] eqn:E; try discriminate. cbn [bind] in H.
  destruct content as [|x content]; [congruence|]. cbn [segment] in E. apply seg_body_strict in E as (-> & E & Y); auto.
  change (negb (4 =? 4)) with false in H. cbn iota in H. change (4 =? 2) with false in E. cbn iota in E.
  destruct r as [|z r].
  - injection H as <-. exists true, []. rewrite E. unfold text, subfields. cbn. auto.
  - change (10 ^ 4) with 10000 in Y. assert (Y' : y <= 9999) by lia.
    match type of H with context [ts_fields y ?rr ?ss Strict] => pose proof (fields_total y rr ss Strict Y') as FT; remember ss as b; destruct (ts_fields y rr b Strict) as [t'| |] eqn:F; try discriminate end.
    destruct FT as [_ FT]. apply fields_strict in F as (tail & F1 & F2); [|discriminate]. exists b, tail.
    injection H as <-. rewrite E, F1. unfold text. rewrite FT, <- !app_assoc. auto.
Qed.

(** Order. *)
Lemma lex_refl : forall a, lex a a = Eq.
Proof. induction a; cbn; auto. now rewrite N.compare_refl. Qed.
Lemma lex_app : forall a b c d, length a = length b -> lex (a ++ c) (b ++ d) = match lex a b with Eq => lex c d | x => x end.
Proof.
  induction a; destruct b; cbn [length lex app]; intros; try discriminate; auto.
  destruct (a ?= n); auto.
Qed.
Lemma lex_d2 : forall a b, lex (d2 a) (d2 b) = (a ?= b).
Proof.
  intros. unfold d2. cbn [lex].
  assert (C : forall x y, (48 + x ?= 48 + y) = (x ?= y)) by (intros; destruct (N.compare_spec x y); [apply N.compare_eq_iff|apply N.compare_lt_iff|apply N.compare_gt_iff]; lia).
  rewrite !C. pose proof (N.div_mod a 10). pose proof (N.div_mod b 10).
  destruct (N.compare_spec (a / 10) (b / 10)).
  - destruct (N.compare_spec (a mod 10) (b mod 10)); symmetry; [apply N.compare_eq_iff|apply N.compare_lt_iff|apply N.compare_gt_iff]; lia.
  - symmetry; apply N.compare_lt_iff. lia.
  - symmetry; apply N.compare_gt_iff. lia.
Qed.
Lemma lex_d4 : forall a b, lex (d4 a) (d4 b) = (a ?= b).
Proof.
  intros. unfold d4. rewrite lex_app by reflexivity. rewrite !lex_d2.
  destruct (N.compare_spec (a / 100) (b / 100)).
  - destruct (N.compare_spec (a mod 100) (b mod 100)); symmetry; [apply N.compare_eq_iff|apply N.compare_lt_iff|apply N.compare_gt_iff]; lia.
  - symmetry; apply N.compare_lt_iff. lia.
  - symmetry; apply N.compare_gt_iff. lia.
Qed.

Fixpoint opts_cmp (a b : list (option N)) : comparison :=
  match a, b with
  | x :: a', y :: b' => ord_then (opt_cmp x y) (opts_cmp a' b')
  | _, _ => Eq
  end.
Lemma ord_then_assoc : forall a b c, ord_then (ord_then a b) c = ord_then a (ord_then b c).
Proof. destruct a; auto. Qed.
Lemma ord_then_eq : forall a, ord_then a Eq = a. Proof. destruct a; auto. Qed.
Lemma ts_cmp_lists : forall a b, ts_cmp a b = ord_then (ts_year a ?= ts_year b) (opts_cmp (subfields a) (subfields b)).
Proof. intros. unfold ts_cmp, subfields. cbn [opts_cmp]. now rewrite !ord_then_assoc, ord_then_eq. Qed.

Lemma all_none_cmp : forall a b, Forall (fun o => o = None) a -> Forall (fun o : option N => o = None) b -> opts_cmp a b = Eq.
Proof. induction a; destruct b; intros; cbn; auto. inversion H; inversion H0; subst. cbn. auto. Qed.

Lemma lex_nil_join : forall s ss f fs, s <> [] -> lex [] (join (s :: ss) (f :: fs)) = Lt /\ lex (join (s :: ss) (f :: fs)) [] = Gt.
Proof. intros. cbn [join]. destruct s; [congruence|]. cbn. auto. Qed.

Lemma lex_fields : forall ss a b, chain a -> chain b -> length a = length ss -> length b = length ss ->
  Forall (fun s => s <> []) ss -> lex (join ss (present a)) (join ss (present b)) = opts_cmp a b.
Proof.
  induction ss as [|s ss IH]; intros a b Ca Cb La Lb F; destruct a as [|x a], b as [|y b]; try discriminate; auto.
  cbn [length] in La, Lb. injection La as La. injection Lb as Lb.
  apply Forall_cons_iff in F as [F1 F2]. cbn [chain present opts_cmp] in *.
  destruct x as [x|], y as [y|]; cbn [opt_cmp ord_then].
  - cbn [join]. rewrite !lex_app, lex_refl, lex_d2 by reflexivity. unfold ord_then. destruct Ca, Cb.
    rewrite IH; auto. destruct (x ?= y); auto.
  - apply lex_nil_join; auto.
  - apply lex_nil_join; auto.
  - change (join (s :: ss) []) with (@nil N). cbn [lex]. symmetry. now apply all_none_cmp.
Qed.

Lemma cmp_text : forall a b, representable a -> representable b -> lex (extended a) (extended b) = ts_cmp a b.
Proof.
  intros a b [Ya Ca] [Yb Cb]. unfold extended. rewrite lex_app by reflexivity. rewrite lex_d4, ts_cmp_lists.
  unfold ord_then. rewrite lex_fields; auto. { destruct (ts_year a ?= ts_year b); auto. } repeat (apply Forall_cons; [discriminate|]). constructor.
Qed.

Lemma opt_cmp_eq : forall a b, opt_cmp a b = Eq <-> a = b.
Proof. intros [x|] [y|]; cbn; try (split; congruence). rewrite N.compare_eq_iff. split; congruence. Qed.
Lemma opt_cmp_antisym : forall a b, opt_cmp b a = CompOpp (opt_cmp a b).
Proof. intros [x|] [y|]; cbn; auto. apply N.compare_antisym. Qed.
Lemma opt_cmp_trans : forall a b c, opt_cmp a b = Lt -> opt_cmp b c = Lt -> opt_cmp a c = Lt.
Proof. intros [x|] [y|] [z|]; cbn; auto; try discriminate. rewrite !N.compare_lt_iff. lia. Qed.

Lemma opts_cmp_eq : forall a b, length a = length b -> (opts_cmp a b = Eq <-> a = b).
Proof.
  induction a; destruct b; cbn [length opts_cmp]; intros; try discriminate. tauto.
  injection H as H. pose proof (opt_cmp_eq a o) as O. specialize (IHa b H).
  destruct (opt_cmp a o); cbn [ord_then]; split; intros X; try discriminate.
  - f_equal. now apply O. now apply IHa.
  - injection X as -> ->. now apply IHa.
  - injection X as -> ->. assert (Lt = Eq) by now apply O. discriminate.
  - injection X as -> ->. assert (Gt = Eq) by now apply O. discriminate.
Qed.
Lemma opts_cmp_antisym : forall a b, opts_cmp b a = CompOpp (opts_cmp a b).
Proof.
  induction a; destruct b; cbn [opts_cmp]; auto. rewrite opt_cmp_antisym, IHa. destruct (opt_cmp a o); auto.
Qed.
Lemma opts_cmp_trans : forall a b c, length a = length b -> length b = length c ->
  opts_cmp a b = Lt -> opts_cmp b c = Lt -> opts_cmp a c = Lt.
Proof.
  induction a; destruct b, c; cbn [opts_cmp length]; intros L1 L2 H1 H2; try discriminate.
  injection L1 as L1. injection L2 as L2.
  destruct (opt_cmp a o) eqn:E1; destruct (opt_cmp o o0) eqn:E2; cbn [ord_then] in *; try discriminate.
  - apply opt_cmp_eq in E1, E2. subst. rewrite (proj2 (opt_cmp_eq o0 o0)) by auto. cbn. eauto.
  - apply opt_cmp_eq in E1. subst. rewrite E2. reflexivity.
  - apply opt_cmp_eq in E2. subst. rewrite E1. reflexivity.
  - now rewrite (opt_cmp_trans _ _ _ E1 E2).
Qed.
Lemma ts_cmp_opts : forall a b, ts_cmp a b = opts_cmp (Some (ts_year a) :: subfields a) (Some (ts_year b) :: subfields b).
Proof. intros. rewrite ts_cmp_lists. reflexivity. Qed.
Lemma ts_eq_lists : forall a b, Some (ts_year a) :: subfields a = Some (ts_year b) :: subfields b -> a = b.
Proof. intros [] [] H. unfold subfields in H. cbn in H. congruence. Qed.

(** Lenient spellings. *)
Lemma written_seg : forall n w r m, n <= 99 -> written n w -> is_strict m = false ->
  (lenN w = 1 -> exists s r', r = s :: r' /\ mem s SEPARATORS = true) ->
  seg_body 2 (w ++ r) true m = Ok (n, lenN w, r).
Proof.
  intros n w r m Hn W M B. destruct W.
  - now apply seg_body_d2.
  - unfold seg_body. rewrite lenN_app. change (lenN [32; 48 + n]) with 2. replace (2 + lenN r <? 2) with false by lia.
    rewrite takeN_app by reflexivity. cbn [seg_loop]. change (32 =? 32) with true. cbn iota. rewrite M.
    replace (48 + n =? 32) with false by lia. rewrite is_digit_48 by lia. cbn [negb]. cbn zeta. replace (0 * 10 + (48 + n - 48)) with n by lia.
    unfold U16_MAX. replace (65535 <? n) with false by lia. cbn [bind]. change (0 + 1 + 1) with 2.
    replace (2 + lenN r <? 2) with false by lia. now rewrite dropN_app.
  - destruct (B eq_refl) as (s & r' & -> & S). unfold seg_body. cbn [app]. rewrite !lenN_cons.
    replace (1 + (1 + lenN r') <? 2) with false by lia.
    change (takeN 2 (48 + n :: s :: r')) with [48 + n; s]. cbn [seg_loop].
    replace (48 + n =? 32) with false by lia. rewrite is_digit_48 by lia. cbn [negb]. cbn zeta. replace (0 * 10 + (48 + n - 48)) with n by lia.
    unfold U16_MAX. replace (65535 <? n) with false by lia.
    assert (S2 : (s =? 32) = false /\ is_digit s = false).
    { unfold mem, SEPARATORS in S. cbn [existsb] in S. unfold is_digit. lia. }
    destruct S2 as [S2 S3]. rewrite S2, S3, S, M. cbn [negb andb bind]. change (lenN [48 + n]) with 1.
    change (0 + 1) with 1. replace (1 + (1 + lenN r') <? 1) with false by lia. reflexivity.
Qed.

(** Texts with explicitly written fields. *)
Fixpoint joinw (seps : list N) (ws : list bytes) : bytes :=
  match seps, ws with
  | s :: seps', w :: ws' => s :: w ++ joinw seps' ws'
  | _, _ => []
  end.

Lemma written_len : forall n w, written n w -> lenN w = 1 \/ lenN w = 2.
Proof. intros. destruct H; auto. Qed.

Lemma joinw_cons : forall s ss w ws, joinw (s :: ss) (w :: ws) = s :: w ++ joinw ss ws. Proof. reflexivity. Qed.
Lemma joinw_nil : forall ss, joinw ss [] = []. Proof. destruct ss; reflexivity. Qed.
Lemma fields_written : forall t m ws, representable t -> is_strict m = false ->
  Forall2 written (present (subfields t)) ws -> ws <> [] -> lenN (last ws []) <> 1 ->
  ts_fields (ts_year t) (joinw [45; 45; 84; 58; 58] ws) true m = Ok t.
Proof.
  intros [y mo d h mi s] m ws [Y C] M F NE LW. unfold subfields in *. cbn [ts_year ts_month ts_day ts_hour ts_minute ts_second] in *.
  assert (SG : forall n sp l w ws' seps, n <= 99 -> written n w -> (lenN w = 1 -> ws' <> [] /\ exists s0 l0, seps = s0 :: l0 /\ mem s0 SEPARATORS = true) ->
    segment 2 (sp :: w ++ joinw seps ws') (Some (sp :: l)) m = Ok (n, lenN w, joinw seps ws')).
  { intros n sp l w ws' seps Hn W B. cbn [segment position]. rewrite N.eqb_refl. cbn [andb N.ltb N.compare].
    apply written_seg; auto. intros L. destruct (B L) as (Hne & s0 & l0 & -> & Ms). destruct ws'; [congruence|]. rewrite joinw_cons. eauto. }
  assert (LB : forall (w : bytes) ws', lenN (last (w :: ws') []) <> 1 -> lenN w = 1 -> ws' <> []).
  { intros w ws' L1 L2 ->. apply L1. exact L2. }
  assert (LT : forall (w : bytes) ws', lenN (last (w :: ws') []) <> 1 -> ws' <> [] -> lenN (last ws' []) <> 1).
  { intros w ws' L1 L2. destruct ws'; [congruence|]. exact L1. }
  assert (CN : forall n w, written n w -> (lenN w =? 0) = false). { intros n w W. destruct (written_len n w W) as [-> | ->]; reflexivity. }
  unfold ts_fields.
  destruct mo as [mo|]. 2: { cbn [present] in F. inversion F; subst. congruence. }
  cbn [present chain] in F, C. destruct C as [C1 C]. inversion F as [|? w1 ? ws1 W1 F1]; subst. clear F. rewrite joinw_cons.
  rewrite SG with (n := mo); auto. 2: { intros. split; [eauto|do 2 eexists; split; reflexivity]. }
  cbn [bind]. rewrite (CN _ _ W1).
  destruct d as [d|]. 2: { cbn [present] in F1. inversion F1; subst. rewrite joinw_nil, segment_nil. cbn [bind]. change (0 =? 0) with true. cbn iota.
    cbn [chain] in C. repeat match goal with H : Forall _ (_ :: _) |- _ => inversion H; subst; clear H end. rewrite N.mod_small by lia. reflexivity. }
  cbn [present chain] in F1, C. destruct C as [C2 C]. inversion F1 as [|? w2 ? ws2 W2 F2]; subst. clear F1. rewrite joinw_cons.
  apply LT in LW; [|discriminate].
  rewrite SG with (n := d); auto. 2: { intros. split; [eauto|do 2 eexists; split; reflexivity]. }
  cbn [bind]. rewrite (CN _ _ W2).
  destruct h as [h|]. 2: { cbn [present] in F2. inversion F2; subst. rewrite joinw_nil, segment_nil. cbn [bind]. change (0 =? 0) with true. cbn iota.
    cbn [chain] in C. repeat match goal with H : Forall _ (_ :: _) |- _ => inversion H; subst; clear H end. rewrite !N.mod_small by lia. reflexivity. }
  cbn [present chain] in F2, C. destruct C as [C3 C]. inversion F2 as [|? w3 ? ws3 W3 F3]; subst. clear F2. rewrite joinw_cons.
  apply LT in LW; [|discriminate].
  rewrite SG with (n := h); auto. 2: { intros. split; [eauto|do 2 eexists; split; reflexivity]. }
  cbn [bind]. rewrite (CN _ _ W3).
  destruct mi as [mi|]. 2: { cbn [present] in F3. inversion F3; subst. rewrite joinw_nil, segment_nil. cbn [bind]. change (0 =? 0) with true. cbn iota.
    cbn [chain] in C. repeat match goal with H : Forall _ (_ :: _) |- _ => inversion H; subst; clear H end. rewrite !N.mod_small by lia. reflexivity. }
  cbn [present chain] in F3, C. destruct C as [C4 C]. inversion F3 as [|? w4 ? ws4 W4 F4]; subst. clear F3. rewrite joinw_cons.
  apply LT in LW; [|discriminate].
  rewrite SG with (n := mi); auto. 2: { intros. split; [eauto|do 2 eexists; split; reflexivity]. }
  cbn [bind]. rewrite (CN _ _ W4).
  destruct s as [s|]. 2: { cbn [present] in F4. inversion F4; subst. rewrite joinw_nil, segment_nil. cbn [bind]. change (0 =? 0) with true. cbn iota.
    rewrite !N.mod_small by lia. reflexivity. }
  cbn [present chain] in F4, C. destruct C as [C5 C]. inversion F4 as [|? w5 ? ws5 W5 F5]; subst. clear F4. inversion F5; subst. 
  apply LT in LW; [|discriminate]. rewrite joinw_cons.
  rewrite SG with (n := s); auto. 2: { intros. exfalso. apply LW. exact H. }
  cbn [bind]. rewrite (CN _ _ W5). rewrite !N.mod_small by lia. reflexivity.
Qed.

Lemma joinw_len : forall ss ws, Forall (fun w => lenN w <= 2) ws -> lenN (joinw ss ws) <= 3 * lenN ss.
Proof.
  induction ss; intros; cbn [joinw]. change (lenN (@nil N)) with 0. lia. destruct ws. change (lenN (@nil N)) with 0. lia.
  apply Forall_cons_iff in H as [H1 H2]. rewrite !lenN_cons, lenN_app. specialize (IHss ws H2). lia.
Qed.

Lemma parse_written : forall t m ws, representable t -> is_strict m = false ->
  Forall2 written (present (subfields t)) ws -> ws <> [] -> lenN (last ws []) <> 1 ->
  ts_parse (d4 (ts_year t) ++ joinw [45; 45; 84; 58; 58] ws) m = Ok (Some t).
Proof.
  intros t m ws R M F NE LW. pose proof (fields_written t m ws R M F NE LW) as FW. destruct R as [Y C].
  assert (L : lenN (joinw [45; 45; 84; 58; 58] ws) <= 15).
  { etransitivity. apply joinw_len. clear - F. induction F; constructor; auto. destruct (written_len _ _ H) as [-> | ->]; lia. reflexivity. }
  unfold ts_parse. unfold d4, d2. cbn [app]. rewrite M.
  assert (W : ascii_ws (48 + ts_year t / 100 / 10) = false).
  { unfold ascii_ws, mem. cbn [existsb]. repeat match goal with |- context [?a =? ?b] => replace (a =? b) with false by lia end. reflexivity. }
  cbn [skip_ws]. rewrite W. rewrite takeN_all by (rewrite !lenN_cons; lia).
  remember (joinw [45; 45; 84; 58; 58] ws) as J.
  assert (HJ : exists r, J = 45 :: r). { destruct ws; [congruence|]. cbn [joinw] in HeqJ. eauto. }
  destruct HJ as [r HJ]. unfold ts_content.
  match goal with |- context [segment 4 ?x None m] => change x with (d4 (ts_year t) ++ J); change (existsb _ x) with (existsb is_sepb (d4 (ts_year t) ++ J)) end.
  assert (Sg : segment 4 (d4 (ts_year t) ++ J) None m = Ok (ts_year t, 4, J)).
  { transitivity (seg_body 4 (d4 (ts_year t) ++ J) false m). reflexivity. now apply seg_body_d4. }
  rewrite Sg. cbn [bind]. change (negb (4 =? 4)) with false. cbn iota.
  rewrite existsb_app, d4_not_sep by auto.
  match goal with |- context [existsb ?f J] => change (existsb f J) with (existsb is_sepb J) end. replace (existsb is_sepb J) with true by (rewrite HJ; reflexivity). cbn [orb].
  rewrite FW. rewrite HJ. reflexivity.
Qed.
