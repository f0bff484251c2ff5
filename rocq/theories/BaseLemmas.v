(** Lemmas about [Base]. *)
From Verif Require Export Base.
Ltac Zify.zify_post_hook ::= Z.div_mod_to_equations.
Arguments N.add : simpl never.
Arguments N.mul : simpl never.
Arguments N.sub : simpl never.
Arguments N.div : simpl never.
Arguments N.modulo : simpl never.
Arguments N.land : simpl never.
Arguments N.lor : simpl never.
Arguments N.lxor : simpl never.
Arguments N.shiftl : simpl never.
Arguments N.shiftr : simpl never.
Arguments N.pow : simpl never.
Arguments N.leb : simpl never.
Arguments N.ltb : simpl never.
Arguments N.eqb : simpl never.
Arguments N.to_nat : simpl never.
Arguments N.of_nat : simpl never.

Lemma lenN_nil : forall A, lenN (@nil A) = 0. Proof. reflexivity. Qed.
Lemma lenN_cons : forall A (x : A) l, lenN (x :: l) = 1 + lenN l.
Proof. intros; unfold lenN; cbn [length]; lia. Qed.
Lemma lenN_app : forall A (a b : list A), lenN (a ++ b) = lenN a + lenN b.
Proof. intros; unfold lenN; rewrite app_length; lia. Qed.
Lemma lenN_rev : forall A (a : list A), lenN (rev a) = lenN a.
Proof. intros; unfold lenN; rewrite rev_length; lia. Qed.
Lemma lenN_map : forall A B (f : A -> B) l, lenN (map f l) = lenN l.
Proof. intros; unfold lenN; rewrite map_length; lia. Qed.
Lemma lenN_repeat : forall A (x : A) n, lenN (repeat x n) = N.of_nat n.
Proof. intros; unfold lenN; rewrite repeat_length; lia. Qed.
Lemma lenN_takeN : forall A n (l : list A), lenN (takeN n l) = N.min n (lenN l).
Proof. intros; unfold lenN, takeN; rewrite firstn_length; lia. Qed.
Lemma lenN_dropN : forall A n (l : list A), lenN (dropN n l) = lenN l - n.
Proof. intros; unfold lenN, dropN; rewrite skipn_length; lia. Qed.
Lemma lenN_0 : forall A (l : list A), lenN l = 0 -> l = [].
Proof. intros A [|] H; auto. rewrite lenN_cons in H; lia. Qed.

Lemma takeN_dropN : forall A n (l : list A), takeN n l ++ dropN n l = l.
Proof. intros; apply firstn_skipn. Qed.
Lemma takeN_all : forall A n (l : list A), lenN l <= n -> takeN n l = l.
Proof. intros; unfold takeN, lenN in *; apply firstn_all2; lia. Qed.
Lemma dropN_all : forall A n (l : list A), lenN l <= n -> dropN n l = [].
Proof. intros; unfold dropN, lenN in *; apply skipn_all2; lia. Qed.
Lemma takeN_app : forall A n (a b : list A), lenN a = n -> takeN n (a ++ b) = a.
Proof.
  intros; unfold takeN, lenN in *. subst. rewrite Nnat.Nat2N.id.
  rewrite firstn_app, firstn_all, Nat.sub_diag. cbn. apply app_nil_r.
Qed.
Lemma dropN_app : forall A n (a b : list A), lenN a = n -> dropN n (a ++ b) = b.
Proof.
  intros; unfold dropN, lenN in *. subst. rewrite Nnat.Nat2N.id.
  rewrite skipn_app, skipn_all, Nat.sub_diag. reflexivity.
Qed.
Lemma takeN_0 : forall A (l : list A), takeN 0 l = [].
Proof. reflexivity. Qed.
Lemma dropN_0 : forall A (l : list A), dropN 0 l = l.
Proof. reflexivity. Qed.
Lemma takeN_app_le : forall A n (a b : list A), n <= lenN a -> takeN n (a ++ b) = takeN n a.
Proof.
  intros; unfold takeN, lenN in *. rewrite firstn_app.
  replace (N.to_nat n - length a)%nat with O by lia. apply app_nil_r.
Qed.
Lemma dropN_app_le : forall A n (a b : list A), n <= lenN a -> dropN n (a ++ b) = dropN n a ++ b.
Proof.
  intros; unfold dropN, lenN in *. rewrite skipn_app.
  replace (N.to_nat n - length a)%nat with O by lia. reflexivity.
Qed.
Lemma dropN_app_ge : forall A n (a b : list A), lenN a <= n -> dropN n (a ++ b) = dropN (n - lenN a) b.
Proof.
  intros; unfold dropN, lenN in *. rewrite skipn_app.
  rewrite skipn_all2 by lia. cbn. f_equal. lia.
Qed.
Lemma takeN_app_ge : forall A n (a b : list A), lenN a <= n -> takeN n (a ++ b) = a ++ takeN (n - lenN a) b.
Proof.
  intros; unfold takeN, lenN in *. rewrite firstn_app.
  rewrite firstn_all2 by lia. f_equal. f_equal. lia.
Qed.
Lemma skipn_skipn' : forall A n m (l : list A), skipn m (skipn n l) = skipn (n + m) l.
Proof.
  induction n; intros; cbn; auto. destruct l; cbn; auto. apply skipn_nil.
Qed.
Lemma dropN_dropN : forall A n m (l : list A), dropN m (dropN n l) = dropN (n + m) l.
Proof. intros; unfold dropN; rewrite skipn_skipn'; f_equal; lia. Qed.

Lemma le_enc_len : forall n v, lenN (le_enc n v) = N.of_nat n.
Proof. induction n; intros; cbn [le_enc]; rewrite ?lenN_cons, ?IHn; try reflexivity; lia. Qed.
Lemma be_enc_len : forall n v, lenN (be_enc n v) = N.of_nat n.
Proof. intros; unfold be_enc; rewrite lenN_rev; apply le_enc_len. Qed.
Lemma le_enc_ok : forall n v, bytes_ok (le_enc n v).
Proof. induction n; intros; cbn [le_enc]; constructor; auto. unfold byte_ok. lia. Qed.
Lemma be_enc_ok : forall n v, bytes_ok (be_enc n v).
Proof. intros; unfold be_enc; apply Forall_rev, le_enc_ok. Qed.
Lemma le_dec_enc : forall n v, v < 256 ^ N.of_nat n -> le_dec (le_enc n v) = v.
Proof.
  induction n; intros; cbn [le_enc le_dec].
  - change (256 ^ N.of_nat 0) with 1 in H. lia.
  - rewrite IHn. 2:{ apply N.div_lt_upper_bound. lia.
      replace (N.of_nat (S n)) with (N.succ (N.of_nat n)) in H by lia.
      rewrite N.pow_succ_r' in H. exact H. }
    pose proof (N.div_mod v 256). lia.
Qed.
Lemma be_dec_enc : forall n v, v < 256 ^ N.of_nat n -> be_dec (be_enc n v) = v.
Proof. intros; unfold be_dec, be_enc; rewrite rev_involutive; now apply le_dec_enc. Qed.
Lemma le_enc_dec : forall l, bytes_ok l -> le_enc (length l) (le_dec l) = l.
Proof.
  induction l; intros; cbn [length le_enc le_dec]; auto. inversion H; subst. unfold byte_ok in *.
  f_equal.
  - lia.
  - replace ((a + 256 * le_dec l) / 256) with (le_dec l) by lia. auto.
Qed.
Lemma be_enc_dec : forall l, bytes_ok l -> be_enc (length l) (be_dec l) = l.
Proof.
  intros; unfold be_enc, be_dec. rewrite <- (rev_length l), le_enc_dec by now apply Forall_rev.
  apply rev_involutive.
Qed.
Lemma le_dec_bound : forall l, bytes_ok l -> le_dec l < 256 ^ lenN l.
Proof.
  induction l; intros.
  - reflexivity.
  - inversion H; subst. unfold byte_ok in *. specialize (IHl H3).
    rewrite lenN_cons. replace (1 + lenN l) with (N.succ (lenN l)) by lia. rewrite N.pow_succ_r'.
    cbn [le_dec]. lia.
Qed.
Lemma be_dec_bound : forall l, bytes_ok l -> be_dec l < 256 ^ lenN l.
Proof. intros; unfold be_dec. rewrite <- lenN_rev. apply le_dec_bound. now apply Forall_rev. Qed.

Lemma read_exact_app : forall n a r, lenN a = n -> read_exact n (a ++ r) = Some (a, r).
Proof.
  intros; unfold read_exact. rewrite lenN_app, takeN_app, dropN_app by auto.
  destruct (N.leb_spec n (lenN a + lenN r)); auto; lia.
Qed.
Lemma read_exact_spec : forall n r b r', read_exact n r = Some (b, r') -> r = b ++ r' /\ lenN b = n.
Proof.
  unfold read_exact; intros. destruct (N.leb_spec n (lenN r)); inversion H; subst.
  rewrite takeN_dropN, lenN_takeN. split; auto; lia.
Qed.
Lemma read_exact_none : forall n r, read_exact n r = None <-> lenN r < n.
Proof. unfold read_exact; intros. destruct (N.leb_spec n (lenN r)); split; intros; try discriminate; try lia; auto. Qed.
Lemma read_le_app : forall n m v r, m = N.of_nat n -> v < 256 ^ m -> read_le m (le_enc n v ++ r) = Some (v, r).
Proof. intros; subst; unfold read_le. rewrite read_exact_app by apply le_enc_len. now rewrite le_dec_enc. Qed.
Lemma read_be_app : forall n m v r, m = N.of_nat n -> v < 256 ^ m -> read_be m (be_enc n v ++ r) = Some (v, r).
Proof. intros; subst; unfold read_be. rewrite read_exact_app by apply be_enc_len. now rewrite be_dec_enc. Qed.

Lemma list_eqb_eq : forall a b, list_eqb a b = true <-> a = b.
Proof.
  induction a; destruct b; cbn; split; intros; try discriminate; auto.
  - apply andb_true_iff in H as [H1 H2]. apply N.eqb_eq in H1. apply IHa in H2. congruence.
  - inversion H; subst. rewrite N.eqb_refl. now apply IHa.
Qed.
Lemma list_eqb_refl : forall a, list_eqb a a = true.
Proof. intros; now apply list_eqb_eq. Qed.
Lemma list_eqb_neq : forall a b, list_eqb a b = false <-> a <> b.
Proof.
  intros. destruct (list_eqb a b) eqn:E; split; intros; try discriminate; auto.
  - apply list_eqb_eq in E. congruence.
  - intro X. apply list_eqb_eq in X. congruence.
Qed.
Lemma lists_eqb_eq : forall a b, lists_eqb a b = true <-> a = b.
Proof.
  induction a; destruct b; cbn; split; intros; try discriminate; auto.
  - apply andb_true_iff in H as [H1 H2]. apply list_eqb_eq in H1. apply IHa in H2. congruence.
  - inversion H; subst. rewrite list_eqb_refl. now apply IHa.
Qed.

Lemma sumN_app : forall a b, sumN (a ++ b) = sumN a + sumN b.
Proof. induction a; intros; cbn [sumN app]; rewrite ?IHa; lia. Qed.
Lemma sumN_repeat : forall x n, sumN (repeat x n) = x * N.of_nat n.
Proof. induction n; cbn [sumN repeat]; rewrite ?IHn; lia. Qed.
Lemma bytes_ok_app : forall a b, bytes_ok (a ++ b) <-> bytes_ok a /\ bytes_ok b.
Proof. intros; apply Forall_app. Qed.
Lemma Forall_takeN : forall A (P : A -> Prop) n l, Forall P l -> Forall P (takeN n l).
Proof. intros; rewrite <- (takeN_dropN _ n l) in H; apply Forall_app in H; tauto. Qed.
Lemma Forall_dropN : forall A (P : A -> Prop) n l, Forall P l -> Forall P (dropN n l).
Proof. intros; rewrite <- (takeN_dropN _ n l) in H; apply Forall_app in H; tauto. Qed.

(** Bit masks as arithmetic. *)
Lemma land_ones_mod : forall x k, N.land x (N.ones k) = x mod 2 ^ k.
Proof. intros; apply N.land_ones. Qed.
Lemma land_mask_shift : forall x k s,
  N.land x (N.shiftl (N.ones k) s) = ((x / 2 ^ s) mod 2 ^ k) * 2 ^ s.
Proof.
  intros. rewrite <- N.land_ones, <- N.shiftr_div_pow2, <- N.shiftl_mul_pow2.
  apply N.bits_inj; intro n. rewrite N.land_spec.
  destruct (N.lt_ge_cases n s).
  - rewrite !N.shiftl_spec_low by auto. apply andb_false_r.
  - rewrite !N.shiftl_spec_high' by auto. rewrite N.land_spec, N.shiftr_spec'.
    now replace (n - s + s) with n by lia.
Qed.
Lemma lor_add : forall a b k, a < 2 ^ k -> N.lor a (b * 2 ^ k) = a + b * 2 ^ k.
Proof.
  intros. rewrite <- N.shiftl_mul_pow2.
  assert (N.land a (N.shiftl b k) = 0).
  { apply N.bits_inj; intro n. rewrite N.land_spec, N.bits_0.
    destruct (N.lt_ge_cases n k).
    - rewrite N.shiftl_spec_low by auto. apply andb_false_r.
    - destruct (N.eq_dec a 0). subst; now rewrite N.bits_0.
      rewrite (N.bits_above_log2 a n); auto.
      apply N.log2_lt_pow2 in H; lia. }
  rewrite <- N.lxor_lor by auto. now rewrite <- N.add_nocarry_lxor.
Qed.
