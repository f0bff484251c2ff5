(** C75: the reverse search finds the last occurrence inside its range, whatever the buffer size. *)
From Verif Require Import Base BaseLemmas RfindModel.

(** The pattern stands at offset [i] of [l]. *)
Definition occurs (pat : bytes) (l : bytes) (i : N) : Prop := exists a b, l = a ++ pat ++ b /\ lenN a = i.

Lemma occurs_iff : forall pat l i, occurs pat l i <-> takeN (lenN pat) (dropN i l) = pat /\ i + lenN pat <= lenN l.
Proof.
  intros. split.
  - intros (a & b & -> & <-). rewrite dropN_app by auto. rewrite takeN_app by auto. rewrite !lenN_app. split; auto; lia.
  - intros [H L]. exists (takeN i l), (dropN (lenN pat) (dropN i l)).
    split. rewrite <- H at 1. now rewrite !takeN_dropN. rewrite lenN_takeN. lia.
Qed.
Lemma takeN_takeN : forall A n m (l : list A), n <= m -> takeN n (takeN m l) = takeN n l.
Proof. intros. unfold takeN. rewrite firstn_firstn. f_equal. lia. Qed.
Lemma dropN_takeN : forall A n m (l : list A), n <= m -> dropN n (takeN m l) = takeN (m - n) (dropN n l).
Proof. intros. unfold takeN, dropN. rewrite firstn_skipn_comm. do 2 f_equal. lia. Qed.

(** An occurrence in the window [s, s+n) is an occurrence in the stream. *)
Lemma window_iff : forall pat data s n i, s + n <= lenN data -> 
  (occurs pat (takeN n (dropN s data)) i <-> occurs pat data (s + i) /\ i + lenN pat <= n).
Proof.
  intros. rewrite !occurs_iff. rewrite lenN_takeN, lenN_dropN. split.
  - intros [A B]. assert (i + lenN pat <= n) by lia. rewrite dropN_takeN, takeN_takeN, dropN_dropN in A by lia.
    repeat split; auto; lia.
  - intros [[A B] D]. rewrite dropN_takeN, takeN_takeN, dropN_dropN by lia. split; auto; lia.
Qed.

Lemma last_window_spec : forall pat win k, (k <= window_count pat win)%nat ->
  match last_window k pat win with
  | Some i => i < N.of_nat k /\ occurs pat win i /\ forall j, i < j -> j < N.of_nat k -> ~ occurs pat win j
  | None => forall j, j < N.of_nat k -> ~ occurs pat win j
  end.
Proof.
  unfold window_count. induction k; intros Hk; cbn [last_window]; [intros; lia|].
  destruct (list_eqb _ _) eqn:E.
  - apply list_eqb_eq in E. repeat split; try (intros; lia). apply occurs_iff. split; auto. lia.
  - apply list_eqb_neq in E. assert (X : ~ occurs pat win (N.of_nat k)) by (intro O; apply occurs_iff in O as [O _]; auto).
    specialize (IHk ltac:(lia)). destruct (last_window k pat win).
    + destruct IHk as (A & B & D). repeat split; auto; try lia. intros j J1 J2. destruct (N.eq_dec j (N.of_nat k)) as [->|]; auto. apply D; lia.
    + intros j J. destruct (N.eq_dec j (N.of_nat k)) as [->|]; auto. apply IHk; lia.
Qed.

(** What the search should answer: the greatest occurrence lying completely in [lo, hi). *)
Definition last_in (pat data : bytes) (lo hi : N) (i : N) : Prop :=
  occurs pat data i /\ lo <= i /\ i + lenN pat <= hi /\ forall j, occurs pat data j -> i < j -> j + lenN pat <= hi -> False.
Definition none_in (pat data : bytes) (lo hi : N) : Prop := forall j, occurs pat data j -> lo <= j -> j + lenN pat <= hi -> False.

Lemma rev_rounds_spec : forall data pat buffer lo hi, pat <> [] -> lenN pat <= buffer -> hi <= lenN data ->
  forall fuel current pos, current <= hi -> (N.to_nat current < fuel)%nat ->
  (forall j, occurs pat data j -> lo <= j -> j + lenN pat <= hi -> j + lenN pat <= current) ->
  match rev_rounds fuel data pat buffer lo current pos with
  | Some (true, i) => last_in pat data lo hi i
  | Some (false, _) => none_in pat data lo hi
  | None => False
  end.
Proof.
  intros data pat buffer lo hi NE B H. assert (1 <= lenN pat) by (destruct pat; [congruence|rewrite lenN_cons; lia]).
  induction fuel; intros current pos HC HF HI; [lia|]. cbn [rev_rounds]. destruct (N.ltb_spec lo current).
  2:{ intros j O L1 L2. specialize (HI j O L1 L2). lia. }
  set (n := N.min buffer (current - lo)). set (s := current - n).
  assert (LD : n <= lenN (dropN s data)) by (rewrite lenN_dropN; lia).
  unfold read_exact. destruct (N.leb_spec n (lenN (dropN s data))); [|lia].
  set (win := takeN n (dropN s data)). assert (LW : lenN win = n) by (unfold win; rewrite lenN_takeN; lia).
  pose proof (last_window_spec pat win (window_count pat win) (le_n _)) as LS.
  assert (WC : N.of_nat (window_count pat win) = n + 1 - lenN pat) by (unfold window_count; rewrite LW; lia).
  rewrite WC in LS. destruct (last_window _ pat win) as [i|].
  - destruct LS as (A & O & M). unfold win in O. apply window_iff in O; [|lia]. destruct O as [O O2].
    repeat split; auto; try lia. intros j Oj J1 J2. specialize (HI j Oj ltac:(lia) J2).
    apply (M (j - s)); try lia. unfold win. apply window_iff; [lia|]. replace (s + (j - s)) with j by lia. split; auto; lia.
  - assert (0 < N.min n (buffer - (lenN pat - 1))) by lia. apply IHfuel; try lia.
    intros j Oj J1 J2. specialize (HI j Oj J1 J2).
    destruct (N.le_gt_cases (j + lenN pat) (current - N.min n (buffer - (lenN pat - 1)))); auto. exfalso.
    apply (LS (j - s)); [lia|]. unfold win. apply window_iff; [lia|]. replace (s + (j - s)) with j by lia. split; auto; lia.
Qed.

Definition range_of (data : bytes) (pos : N) (s : rev_start) (e : rev_end) : N * N :=
  (match e with StreamStart => 0 | EndCurrent => pos | EndPos p => p end,
   match s with FromEnd => lenN data | FromCurrent => pos end).

(** For every stream, position, non-empty pattern, buffer at least as long as the pattern and range inside the stream: the search
    never fails, and it answers the last occurrence inside the range, or that there is none. *)
Theorem C75_finds_last : forall data pos pat buffer s e, pat <> [] -> lenN pat <= buffer -> pos <= lenN data ->
  exists b p, rev_search data pos pat buffer s e = Some (b, p) /\
    let (lo, hi) := range_of data pos s e in if b then last_in pat data lo hi p else none_in pat data lo hi.
Proof.
  intros data pos pat buffer s e NE B P. unfold rev_search, range_of.
  assert (1 <= lenN pat) by (destruct pat; [congruence|rewrite lenN_cons; lia]).
  set (hi := match s with FromEnd => _ | FromCurrent => _ end). set (lo := match e with StreamStart => _ | _ => _ end).
  assert (hi <= lenN data) by (unfold hi; destruct s; lia).
  destruct pat as [|x pat]; [congruence|]. set (pt := x :: pat) in *.
  destruct (N.ltb_spec hi lo); [|destruct (N.ltb_spec (hi - lo) (lenN pt)); [|destruct (N.ltb_spec buffer (lenN pt)); [lia|]]]; cbn [orb].
  - do 2 eexists. split; [reflexivity|]. intros j O. lia.
  - do 2 eexists. split; [reflexivity|]. intros j O. lia.
  - pose proof (rev_rounds_spec data pt buffer lo hi NE B H0 (S (N.to_nat hi)) hi hi (N.le_refl _) ltac:(lia) ltac:(auto)) as S.
    destruct (rev_rounds _ data pt buffer lo hi hi) as [[[] p]|]; [| |contradiction]; do 2 eexists; split; eauto; exact S.
Qed.
Print Assumptions C75_finds_last.
Example C75_ex : rev_search [1; 2; 9; 1; 2; 9; 1] 0 [1; 2] 2 FromEnd StreamStart = Some (true, 3) /\
  rev_search [1; 2; 9; 1; 2; 9; 1] 3 [1; 2] 1024 FromCurrent StreamStart = Some (true, 0) /\
  rev_search [1; 2; 9; 1; 2; 9; 1] 4 [1; 2] 3 FromEnd EndCurrent = Some (false, 5) /\
  last_in [1; 2] [1; 2; 9; 1; 2; 9; 1] 0 7 3.
Proof.
  repeat split; try (vm_compute; reflexivity).
  - exists [1; 2; 9], [9; 1]. auto.
  - vm_compute. discriminate.
  - vm_compute. discriminate.
  - intros j O J1 J2. apply occurs_iff in O as [O L]. vm_compute lenN in *.
    assert (j = 4 \/ j = 5) as [-> | ->] by lia; vm_compute in O; discriminate.
Qed.

(** The documentation of [search] (io.rs 375-378) promises the original position when nothing was found. *)
Theorem C75_position_refuted : ~ (forall data pos pat buffer s e p, pos <= lenN data -> lenN pat <= buffer ->
  rev_search data pos pat buffer s e = Some (false, p) -> p = pos).
Proof. intro H. specialize (H [7; 7] 0 [1] 1024 FromEnd StreamStart 2 ltac:(vm_compute; discriminate) ltac:(vm_compute; discriminate) eq_refl). discriminate. Qed.
Print Assumptions C75_position_refuted.
