(** Lemmas about [Str]: decimal printing and parsing, case folding. *)
From Verif Require Export BaseLemmas Str.

Lemma lower_ascii_idem : forall c, lower_ascii (lower_ascii c) = lower_ascii c.
Proof. intros. unfold lower_ascii. repeat match goal with |- context [if ?b then _ else _] => let E := fresh in destruct b eqn:E end; lia. Qed.
Lemma lower_idem : forall s, lower (lower s) = lower s.
Proof. intros. unfold lower. rewrite map_map. apply map_ext. apply lower_ascii_idem. Qed.
Lemma eq_ignore_case_iff : forall a b, eq_ignore_case a b = true <-> lower a = lower b.
Proof. intros. unfold eq_ignore_case. apply list_eqb_eq. Qed.
Lemma eq_ignore_case_refl : forall a, eq_ignore_case a a = true.
Proof. intros. now apply eq_ignore_case_iff. Qed.
Lemma eq_ignore_case_sym : forall a b, eq_ignore_case a b = eq_ignore_case b a.
Proof.
  intros. destruct (eq_ignore_case a b) eqn:E.
  - symmetry. apply eq_ignore_case_iff. apply eq_ignore_case_iff in E. auto.
  - destruct (eq_ignore_case b a) eqn:E2; auto. apply eq_ignore_case_iff in E2.
    assert (eq_ignore_case a b = true) by (apply eq_ignore_case_iff; auto). congruence.
Qed.
Lemma eq_ignore_case_trans : forall a b c, eq_ignore_case a b = true -> eq_ignore_case b c = true -> eq_ignore_case a c = true.
Proof. intros. rewrite eq_ignore_case_iff in *. congruence. Qed.

(** Value of a digit string. *)
Definition dec_val (acc : N) (s : list N) : N := fold_left (fun a c => a * 10 + (c - 48)) s acc.
Lemma dec_val_app : forall a b acc, dec_val acc (a ++ b) = dec_val (dec_val acc a) b.
Proof. intros. unfold dec_val. apply fold_left_app. Qed.
Lemma dec_val_mono : forall s acc, acc <= dec_val acc s.
Proof. induction s; intros; cbn. lia. etransitivity; [|apply IHs]. lia. Qed.

Lemma digits_spec : forall fuel n, n < 2 ^ N.of_nat fuel ->
  Forall (fun c => is_digit c = true) (digits_fuel fuel n) /\ dec_val 0 (digits_fuel fuel n) = n /\
  (fuel <> O -> digits_fuel fuel n <> [] /\ (n <> 0 -> hd 0 (digits_fuel fuel n) <> 48)).
Proof.
  induction fuel; intros.
  - cbn in *. change (2 ^ N.of_nat 0) with 1 in H. repeat split; auto; lia.
  - unfold digits_fuel; fold digits_fuel. destruct (N.ltb_spec n 10).
    + repeat split.
      * repeat constructor. unfold is_digit. lia.
      * cbn. lia.
      * discriminate.
      * cbn. lia.
    + replace (N.of_nat (S fuel)) with (N.succ (N.of_nat fuel)) in H by lia. rewrite N.pow_succ_r' in H.
      assert (Hd : n / 10 < 2 ^ N.of_nat fuel) by lia.
      destruct (IHfuel _ Hd) as (F & V & Hn).
      assert (fuel <> O) by (intro; subst; change (2 ^ N.of_nat 0) with 1 in *; lia).
      specialize (Hn H1) as [Hn1 Hn2].
      repeat split.
      * apply Forall_app. split; auto. repeat constructor. unfold is_digit. lia.
      * rewrite dec_val_app, V. cbn. lia.
      * intros E. now apply app_eq_nil in E as [_ E].
      * intros _. destruct (digits_fuel fuel (n / 10)); [congruence|]. cbn [app hd]. apply Hn2. lia.
Qed.
Lemma to_dec_spec : forall n,
  Forall (fun c => is_digit c = true) (to_dec n) /\ dec_val 0 (to_dec n) = n /\ to_dec n <> [] /\
  (n <> 0 -> hd 0 (to_dec n) <> 48).
Proof.
  intros. unfold to_dec.
  destruct (digits_spec (S (N.to_nat (N.log2 n))) n) as (A & B & C).
  - replace (N.of_nat (S (N.to_nat (N.log2 n)))) with (N.succ (N.log2 n)) by lia.
    destruct (N.eq_dec n 0). subst; reflexivity. apply N.log2_spec. lia.
  - destruct C; auto.
Qed.

Lemma parse_digits_spec : forall max s acc, Forall (fun c => is_digit c = true) s -> dec_val acc s <= max ->
  parse_digits max acc s = Some (dec_val acc s).
Proof.
  induction s; intros; cbn [parse_digits dec_val fold_left]; auto. inversion H; subst. rewrite H3.
  change (dec_val acc (a :: s)) with (dec_val (acc * 10 + (a - 48)) s) in H0.
  pose proof (dec_val_mono s (acc * 10 + (a - 48))).
  destruct (N.ltb_spec max (acc * 10 + (a - 48))); [lia|]. now apply IHs.
Qed.
Lemma parse_digits_sound : forall max s acc v, acc <= max -> parse_digits max acc s = Some v ->
  Forall (fun c => is_digit c = true) s /\ v = dec_val acc s /\ v <= max.
Proof.
  induction s; intros; cbn [parse_digits] in H0.
  - inversion H0; subst. repeat split; auto.
  - destruct (is_digit a) eqn:E; [|discriminate]. destruct (N.ltb_spec max (acc * 10 + (a - 48))); [discriminate|].
    apply IHs in H0 as (F & V & B); auto.
Qed.
Lemma parse_uint_to_dec : forall max n, n <= max -> parse_uint max (to_dec n) = Some n.
Proof.
  intros. destruct (to_dec_spec n) as (F & V & Ne & _). unfold parse_uint.
  assert (P : parse_digits max 0 (to_dec n) = Some n) by (rewrite parse_digits_spec; rewrite ?V; auto).
  destruct (to_dec n) as [|c s]; [congruence|]. inversion F; subst. unfold is_digit in H2.
  destruct (N.eq_dec c 43). lia.
  assert (E : match c with 43 => match s with [] => None | _ => parse_digits max 0 s end | _ => parse_digits max 0 (c :: s) end = parse_digits max 0 (c :: s)).
  { destruct c; auto. do 6 (destruct p; auto). congruence. }
  destruct c; auto. do 6 (destruct p; auto). congruence.
Qed.
Lemma parse_uint_bound : forall max s v, parse_uint max s = Some v -> v <= max.
Proof.
  unfold parse_uint. intros. destruct s as [|c s]; [discriminate|].
  destruct c as [|p]. { apply parse_digits_sound in H; [tauto|lia]. }
  repeat (destruct p as [p|p|]; try (apply parse_digits_sound in H; [tauto|lia])).
  destruct s; [discriminate|]. apply parse_digits_sound in H; [tauto|lia].
Qed.
Lemma to_dec_no : forall n c, is_digit c = false -> ~ In c (to_dec n).
Proof. intros n c H I. destruct (to_dec_spec n) as (F & _). rewrite Forall_forall in F. apply F in I. congruence. Qed.
Lemma to_dec_inj : forall a b, to_dec a = to_dec b -> a = b.
Proof. intros. destruct (to_dec_spec a) as (_ & V & _). destruct (to_dec_spec b) as (_ & V2 & _). congruence. Qed.
