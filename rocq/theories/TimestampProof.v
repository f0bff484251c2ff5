From Verif Require Import BaseLemmas Str StrLemmas TimestampModel TimestampSpec.

Fixpoint allN (k : nat) (n : N) (f : N -> bool) : bool := match k with O => true | S k' => f n && allN k' (n + 1) f end.
Lemma allN_spec : forall k n f, allN k n f = true -> forall x, n <= x < n + N.of_nat k -> f x = true.
Proof.
  induction k; intros; cbn [allN] in *. lia. apply andb_prop in H as [H1 H2].
  destruct (N.eq_dec x n). now subst. apply (IHk (n + 1)); auto. lia.
Qed.
Lemma pad2 : forall n, n <= 99 -> pad 2 n = d2 n.
Proof.
  assert (A : allN 100 0 (fun n => list_eqb (pad 2 n) (d2 n)) = true) by (vm_compute; reflexivity).
  intros. apply list_eqb_eq. apply (allN_spec _ _ _ A). lia.
Qed.
Lemma pad4 : forall n, n <= 9999 -> pad 4 n = d4 n.
Proof.
  assert (A : allN (N.to_nat 10000) 0 (fun n => list_eqb (pad 4 n) (d4 n)) = true) by (vm_compute; reflexivity).
  intros. apply list_eqb_eq. apply (allN_spec _ _ _ A). rewrite Nnat.N2Nat.id. lia.
Qed.

Lemma display_extended : forall t, representable t -> ts_display t = extended t.
Proof.
  intros [y mo d h mi s] [Y C]. unfold ts_display, extended, subfields in *. cbn [ts_year ts_month ts_day ts_hour ts_minute ts_second] in *.
  rewrite pad4 by auto. f_equal.
  destruct mo as [mo|]; [|reflexivity]. cbn [chain] in C. destruct C as [C1 C]. cbn [present join app]. rewrite pad2 by auto. do 2 f_equal.
  destruct d as [d|]; [|reflexivity]. cbn [chain] in C. destruct C as [C2 C]. cbn [present join app]. rewrite pad2 by auto. do 2 f_equal.
  destruct h as [h|]; [|reflexivity]. cbn [chain] in C. destruct C as [C3 C]. cbn [present join app]. rewrite pad2 by auto. do 2 f_equal.
  destruct mi as [mi|]; [|reflexivity]. cbn [chain] in C. destruct C as [C4 C]. cbn [present join app]. rewrite pad2 by auto. do 2 f_equal.
  destruct s as [s|]; [|reflexivity]. cbn [chain] in C. destruct C as [C5 C]. cbn [present join app]. rewrite pad2 by auto. now rewrite app_nil_r.
Qed.

Lemma is_digit_48 : forall n, n <= 9 -> is_digit (48 + n) = true.
Proof. intros. unfold is_digit. lia. Qed.

Lemma seg_loop_digit : forall n l m b num c, n <= 9 -> (match num with Some x => x | None => 0 end) <= 999 ->
  seg_loop (48 + n :: l) m b num c =
  seg_loop l m b (Some (match num with Some x => x | None => 0 end * 10 + n)) (c + 1).
Proof.
  intros. cbn [seg_loop]. replace (48 + n =? 32) with false by lia. rewrite is_digit_48 by auto. cbn [negb].
  replace (48 + n - 48) with n by lia.
  remember (match num with Some x => x | None => 0 end) as v. unfold U16_MAX.
  replace (65535 <? v * 10 + n) with false by lia. reflexivity.
Qed.

Lemma seg2_loop : forall n m b, n <= 99 -> seg_loop (d2 n) m b None 0 = Ok (Some n, 2).
Proof.
  intros. unfold d2. rewrite seg_loop_digit by lia. rewrite seg_loop_digit by lia. cbn [seg_loop]. do 3 f_equal. lia.
Qed.
Lemma seg4_loop : forall n m b, n <= 9999 -> seg_loop (d4 n) m b None 0 = Ok (Some n, 4).
Proof.
  intros. unfold d4, d2. cbn [app]. rewrite !seg_loop_digit by lia. cbn [seg_loop]. do 3 f_equal. lia.
Qed.

Lemma seg_body_d2 : forall n r b m, n <= 99 -> seg_body 2 (d2 n ++ r) b m = Ok (n, 2, r).
Proof.
  intros. unfold seg_body. rewrite lenN_app. change (lenN (d2 n)) with 2.
  replace (2 + lenN r <? 2) with false by lia.
  rewrite takeN_app, seg2_loop by auto. cbn [bind]. change (2 + lenN r <? 2) with (2 + lenN r <? 2).
  replace (2 + lenN r <? 2) with false by lia. now rewrite dropN_app.
Qed.
Lemma seg_body_d4 : forall n r b m, n <= 9999 -> seg_body 4 (d4 n ++ r) b m = Ok (n, 4, r).
Proof.
  intros. unfold seg_body. rewrite lenN_app. change (lenN (d4 n)) with 4.
  replace (4 + lenN r <? 4) with false by lia.
  rewrite takeN_app, seg4_loop by auto. cbn [bind].
  replace (4 + lenN r <? 4) with false by lia. now rewrite dropN_app.
Qed.

(** A separated or unseparated two-digit segment. *)
Lemma segment_d2 : forall n r (sep : option N) l m, n <= 99 ->
  segment 2 (match sep with Some s => [s] | None => [] end ++ d2 n ++ r)
    (match sep with Some s => Some (s :: l) | None => None end) m = Ok (n, 2, r).
Proof.
  intros. destruct sep as [s|]; cbn [app segment].
  - cbn [position]. rewrite N.eqb_refl. cbn [andb N.ltb N.compare]. now apply seg_body_d2.
  - unfold d2 at 1. cbn [app]. change (48 + n / 10 :: 48 + n mod 10 :: r) with (d2 n ++ r). now apply seg_body_d2.
Qed.

Definition sepl (b : bool) : list bytes := if b then [[45]; [45]; [84]; [58]; [58]] else [[]; []; [84]; []; []].

Lemma segment_nil : forall k s m, segment k [] s m = Ok (0, 0, []).
Proof. reflexivity. Qed.

Lemma fields_text : forall (seps : bool) t m, representable t -> present (subfields t) <> [] ->
  ts_fields (ts_year t) (join (sepl seps) (present (subfields t))) seps m = Ok t.
Proof.
  intros seps [y mo d h mi s] m [Y C] NE. unfold subfields in *. cbn [ts_year ts_month ts_day ts_hour ts_minute ts_second] in *.
  assert (S1 : forall n r (sp : bool) , n <= 99 -> segment 2 ((if sp then [45] else []) ++ d2 n ++ r) (if sp then Some [45;46] else None) m = Ok (n, 2, r)).
  { intros n r sp Hn. pose proof (segment_d2 n r (if sp then Some 45 else None) [46] m Hn) as S. destruct sp; exact S. }
  assert (S2 : forall n r (sp : bool) , n <= 99 -> segment 2 ((if sp then [58] else []) ++ d2 n ++ r) (if sp then Some [58] else None) m = Ok (n, 2, r)).
  { intros n r sp Hn. pose proof (segment_d2 n r (if sp then Some 58 else None) [] m Hn) as S. destruct sp; exact S. }
  assert (S3 : forall n r, n <= 99 -> segment 2 ([84] ++ d2 n ++ r) (Some [84]) m = Ok (n, 2, r)).
  { intros n r Hn. exact (segment_d2 n r (Some 84) [] m Hn). }
  assert (SL : sepl seps = [if seps then [45] else []; if seps then [45] else []; [84]; if seps then [58] else []; if seps then [58] else []]) by (destruct seps; reflexivity).
  rewrite SL. clear SL. unfold ts_fields.
  destruct mo as [mo|]; [|now cbn in NE]. clear NE. cbn [chain] in C. destruct C as [C1 C]. cbn [present join].
  rewrite S1 by auto. cbn [bind]. change (2 =? 0) with false. cbn iota.
  destruct d as [d|]. 2: { cbn [present join]. rewrite segment_nil. cbn [bind]. change (0 =? 0) with true. cbn iota.
    cbn [chain] in C. repeat match goal with H : Forall _ (_ :: _) |- _ => inversion H; subst; clear H end. rewrite N.mod_small by lia. reflexivity. }
  cbn [chain] in C. destruct C as [C2 C]. cbn [present join].
  rewrite S1 by auto. cbn [bind]. change (2 =? 0) with false. cbn iota.
  destruct h as [h|]. 2: { cbn [present join]. rewrite segment_nil. cbn [bind]. change (0 =? 0) with true. cbn iota.
    cbn [chain] in C. repeat match goal with H : Forall _ (_ :: _) |- _ => inversion H; subst; clear H end. rewrite !N.mod_small by lia. reflexivity. }
  cbn [chain] in C. destruct C as [C3 C]. cbn [present join].
  rewrite S3 by auto. cbn [bind]. change (2 =? 0) with false. cbn iota.
  destruct mi as [mi|]. 2: { cbn [present join]. rewrite segment_nil. cbn [bind]. change (0 =? 0) with true. cbn iota.
    cbn [chain] in C. repeat match goal with H : Forall _ (_ :: _) |- _ => inversion H; subst; clear H end. rewrite !N.mod_small by lia. reflexivity. }
  cbn [chain] in C. destruct C as [C4 C]. cbn [present join].
  rewrite S2 by auto. cbn [bind]. change (2 =? 0) with false. cbn iota.
  destruct s as [s|]. 2: { cbn [present join]. rewrite segment_nil. cbn [bind]. change (0 =? 0) with true. cbn iota.
    rewrite !N.mod_small by lia. reflexivity. }
  cbn [chain] in C. destruct C as [C5 C]. cbn [present join].
  rewrite S2 by auto. cbn [bind]. change (2 =? 0) with false. cbn iota.
  rewrite !N.mod_small by lia. reflexivity.
Qed.

Definition is_sepb (b : N) : bool := negb (b =? 84) && mem b SEPARATORS.
Lemma digit_not_sep : forall n, n <= 9 -> is_sepb (48 + n) = false.
Proof. intros. unfold is_sepb, mem, SEPARATORS. cbn [existsb]. replace (48+n =? 45) with false by lia. replace (48+n =? 46) with false by lia.
  replace (48+n =? 84) with false by lia. replace (48+n =? 58) with false by lia. reflexivity. Qed.
Lemma d2_not_sep : forall n, n <= 99 -> existsb is_sepb (d2 n) = false.
Proof. intros. unfold d2. cbn [existsb]. now rewrite !digit_not_sep by lia. Qed.
Lemma d4_not_sep : forall n, n <= 9999 -> existsb is_sepb (d4 n) = false.
Proof. intros. unfold d4. rewrite existsb_app, !d2_not_sep by lia. reflexivity. Qed.

Lemma present_le : forall l, chain l -> Forall (fun x => x <= 99) (present l).
Proof.
  induction l as [|[x|] l IH]; cbn [present chain]; intros; auto. destruct H. constructor; auto.
Qed.
Lemma join_basic_nosep : forall ss l, Forall (fun s => existsb is_sepb s = false) ss -> Forall (fun x => x <= 99) l ->
  existsb is_sepb (join ss l) = false.
Proof.
  induction ss; intros; cbn [join]; auto. destruct l; auto. inversion H; inversion H0; subst.
  rewrite !existsb_app, H3, d2_not_sep, IHss; auto.
Qed.

Lemma join_len : forall ss l, Forall (fun s => lenN s <= 1) ss -> lenN (join ss l) <= 3 * lenN ss.
Proof.
  induction ss; intros; cbn [join]. { change (lenN (@nil N)) with 0. lia. } inversion H; subst. rewrite lenN_cons.
  destruct l. rewrite lenN_nil. lia. rewrite !lenN_app. change (lenN (d2 n)) with 2. specialize (IHss l H3). lia.
Qed.
Lemma sepl_len : forall b, Forall (fun s => lenN s <= 1) (sepl b).
Proof. destruct b; repeat (apply Forall_cons; [vm_compute; discriminate|]); constructor. Qed.

Definition text (b : bool) (t : timestamp) : bytes := d4 (ts_year t) ++ join (sepl b) (present (subfields t)).
Lemma text_len : forall b t, lenN (text b t) <= 19.
Proof.
  intros. unfold text. rewrite lenN_app. change (lenN (d4 (ts_year t))) with 4.
  pose proof (join_len (sepl b) (present (subfields t)) (sepl_len b)). destruct b; change (lenN (sepl _)) with 5 in H; lia.
Qed.

Lemma representable_none : forall t, representable t -> present (subfields t) = [] -> t = mkTs (ts_year t) None None None None None.
Proof.
  intros [y mo d h mi s] [Y C] H. unfold subfields in *. cbn in H, C. destruct mo; [discriminate|].
  repeat match goal with H : Forall _ (_ :: _) |- _ => inversion H; subst; clear H end. reflexivity.
Qed.

Lemma content_text : forall b t m, representable t -> ts_content (text b t) m = Ok (Some t).
Proof.
  intros b t m R. pose proof R as [Y C]. unfold ts_content, text.
  destruct (present (subfields t)) as [|f fs] eqn:P.
  - assert (J : join (sepl b) [] = []) by (destruct b; reflexivity). rewrite J.
    assert (Sg : segment 4 (d4 (ts_year t) ++ []) None m = Ok (ts_year t, 4, [])).
    { transitivity (seg_body 4 (d4 (ts_year t) ++ []) false m). reflexivity. now apply seg_body_d4. }
    rewrite Sg. cbn [bind]. change (negb (4 =? 4)) with false. cbn iota. now rewrite <- representable_none.
  - assert (Sg : forall r, segment 4 (d4 (ts_year t) ++ r) None m = Ok (ts_year t, 4, r)).
    { intros. transitivity (seg_body 4 (d4 (ts_year t) ++ r) false m). reflexivity. now apply seg_body_d4. }
    rewrite Sg. cbn [bind]. change (negb (4 =? 4)) with false. cbn iota.
    replace (existsb (fun b0 => negb (b0 =? 84) && mem b0 SEPARATORS) (d4 (ts_year t) ++ join (sepl b) (f :: fs))) with b.
    2: { change (fun b0 => negb (b0 =? 84) && mem b0 SEPARATORS) with is_sepb. rewrite existsb_app, d4_not_sep by auto. destruct b.
         - reflexivity.
         - symmetry. apply join_basic_nosep. repeat (apply Forall_cons; [reflexivity|]); constructor.
           rewrite <- P. now apply present_le. }
    assert (NE : join (sepl b) (f :: fs) <> []) by (destruct b; cbn; discriminate).
    pose proof (fields_text b t m R) as F. rewrite P in F.
    destruct (join (sepl b) (f :: fs)) eqn:J; [congruence|]. rewrite F by discriminate. reflexivity.
Qed.

Lemma parse_text : forall b t m, representable t -> ts_parse (text b t) m = Ok (Some t).
Proof.
  intros. pose proof (content_text b t m H) as CT. pose proof (text_len b t) as L. destruct H as [Y _].
  unfold ts_parse. unfold text in *. unfold d4, d2 in *. cbn [app] in *.
  assert (W : ascii_ws (48 + ts_year t / 100 / 10) = false).
  { unfold ascii_ws, mem. cbn [existsb]. repeat match goal with |- context [?a =? ?b] => replace (a =? b) with false by lia end. reflexivity. }
  assert (E : (if is_strict m then Some (48 + ts_year t / 100 / 10, 48 + (ts_year t / 100) mod 10 :: 48 + ts_year t mod 100 / 10 :: 48 + (ts_year t mod 100) mod 10 :: join (sepl b) (present (subfields t)))
    else skip_ws (48 + ts_year t / 100 / 10) (48 + (ts_year t / 100) mod 10 :: 48 + ts_year t mod 100 / 10 :: 48 + (ts_year t mod 100) mod 10 :: join (sepl b) (present (subfields t))))
    = Some (48 + ts_year t / 100 / 10, 48 + (ts_year t / 100) mod 10 :: 48 + ts_year t mod 100 / 10 :: 48 + (ts_year t mod 100) mod 10 :: join (sepl b) (present (subfields t)))).
  { destruct (is_strict m); auto. cbn [skip_ws]. now rewrite W. }
  rewrite E. rewrite takeN_all. exact CT. rewrite lenN_cons in L. lia.
Qed.
