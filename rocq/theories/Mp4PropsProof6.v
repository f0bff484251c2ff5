From Verif Require Import Base BaseLemmas Str StrLemmas Mode PictureModel FileModel MathModel Mp4Model Mp4PropsModel.

(** ** Every step of a loop moves the reader forward, or leaves nothing to read *)
Section Loops.
Variables (data : bytes) (L : N).
Hypotheses (DOK : bytes_ok data) (LS : L < 2 ^ 32).
Definition lim (r : reader) : Prop := match r_bound r with Some b => b_start b + b_len b <= L | None => False end.
Definition stuck (r : reader) : Prop := match r_bound r with Some b => b_rem b = 0 | None => False end.
Definition ahead (r r' : reader) : Prop := lim r' /\ (stuck r' \/ r_pos r <= r_pos r').
Definition past (n : N) (r r' : reader) : Prop := lim r' /\ r_pos r + n <= r_pos r'.

Lemma inner_past : forall n r x r', lim r -> rd_inner data n r = Ok (x, r') -> lim r' /\ r_pos r' = r_pos r + n /\ (0 < n -> r_pos r + n <= lenN data) /\ bytes_ok x /\ lenN x = n.
Proof.
  intros n r x r' HL H. unfold rd_inner in H. destruct (read_exact n (dropN (r_pos r) data)) as [[y z]|] eqn:E; cbn in H; [|discriminate]. injection H as <- <-.
  apply read_exact_spec in E. destruct E as [E LN]. split; [unfold lim, consume in *; cbn; destruct (r_bound r); exact HL|]. split; [reflexivity|].
  split; [|split; [|exact LN]].
  - intros P. assert (B : lenN (dropN (r_pos r) data) = lenN data - r_pos r) by (unfold lenN, dropN; rewrite skipn_length; lia). rewrite E, lenN_app in B. lia.
  - assert (FA : bytes_ok (dropN (r_pos r) data)). { unfold dropN. rewrite <- (firstn_skipn (N.to_nat (r_pos r)) data) in DOK. now apply Forall_app in DOK. } rewrite E in FA. now apply Forall_app in FA.
Qed.
Lemma exact_past : forall n r x r', lim r -> rd_exact data n r = Ok (x, r') -> lim r' /\ r_pos r' = r_pos r + n /\ (0 < n -> r_pos r + n <= lenN data /\ ~ stuck r) /\ bytes_ok x /\ lenN x = n.
Proof.
  intros n r x r' HL H. unfold rd_exact in H. destruct (N.eqb_spec n 0) as [->|NZ].
  - injection H as <- <-. split; [exact HL|]. split; [lia|]. split; [lia|]. split; [constructor|reflexivity].
  - unfold lim in HL. destruct (r_bound r) as [b|] eqn:E; [|destruct HL]. destruct (N.eqb_spec (b_rem b) 0) as [Z|Z]; [discriminate|].
    apply inner_past in H; [|unfold lim; now rewrite E]. destruct H as (A & B & C & D & F). repeat split; auto. unfold stuck. now rewrite E.
Qed.
Lemma be_past : forall n r x r', lim r -> rd_be data n r = Ok (x, r') -> lim r' /\ r_pos r' = r_pos r + n /\ (0 < n -> r_pos r + n <= lenN data /\ ~ stuck r) /\ x < 256 ^ n.
Proof.
  intros n r x r' HL H. unfold rd_be in H. destruct (rd_exact data n r) as [[y r1]|?|] eqn:E; cbn in H; try discriminate. injection H as <- <-.
  apply exact_past in E; [|exact HL]. destruct E as (A & B & C & D & F). repeat split; try apply C; auto. apply be_dec_bound in D. now rewrite F in D.
Qed.
Lemma own_past : forall n r x r', lim r -> rd_be_own data n r = Ok (x, r') -> lim r' /\ r_pos r' = r_pos r + n /\ (0 < n -> r_pos r + n <= lenN data).
Proof.
  intros n r x r' HL H. unfold rd_be_own in H. destruct (rd_inner data n r) as [[y r1]|?|] eqn:E; cbn in H; try discriminate. injection H as <- <-. apply inner_past in E; [|exact HL]. now intuition.
Qed.
Lemma cur_past : forall s r r', lim r -> (0 <= s)%Z -> seek_cur s r = Ok r' -> lim r' /\ r_pos r' = r_pos r + Z.to_N s /\ (stuck r -> stuck r').
Proof.
  intros s r r' HL HS H. unfold seek_cur in H. destruct (_ <? 0)%Z eqn:E in H; [discriminate|]. injection H as <-. unfold lim, stuck in *. cbn. destruct (r_bound r) as [b|]; [|destruct HL]. cbn.
  replace (s <? 0)%Z with false by lia. repeat split; lia.
Qed.
Lemma start_ahead : forall s r, lim r -> lim (seek_start s r) /\ (stuck (seek_start s r) \/ s <= r_pos (seek_start s r)).
Proof.
  intros s r HL. unfold seek_start, lim, stuck in *. destruct (r_bound r) as [b|]; [|destruct HL]. destruct (b_len b <? s) eqn:E; cbn; split; try exact HL; [now left|right; lia].
Qed.
Lemma end_stuck : forall r, lim r -> lim (seek_end data r) /\ stuck (seek_end data r).
Proof. intros r HL. unfold seek_end, lim, stuck in *. destruct (r_bound r) as [b|]; [|destruct HL]. cbn. auto. Qed.
Lemma cur_lim : forall s r r', lim r -> seek_cur s r = Ok r' -> lim r'.
Proof. intros s r r' HL H. unfold seek_cur in H. destruct (_ <? 0)%Z in H; [discriminate|]. injection H as <-. unfold lim in *. cbn. destruct (r_bound r); exact HL. Qed.

Definition head_good (h : head) : Prop := 8 <= h_len h /\ (h_ext h = false -> h_len h < 2 ^ 32).
Lemma head_past : forall size m r o r', lim r -> read_head data size m r = Ok (o, r') ->
  r_pos r + 8 <= lenN data /\ ~ stuck r /\ match o with Some h => past 8 r r' /\ head_good h | None => lim r' /\ stuck r' end.
Proof.
  intros size m r o r' HL H. unfold read_head in H.
  destruct (rd_be data 4 r) as [[raw r1]|?|] eqn:E1; cbn [bind] in H; try discriminate. apply be_past in E1; [|exact HL]. destruct E1 as (L1 & P1 & B1 & R1). destruct (B1 eq_refl) as [B1' NS].
  destruct (rd_exact data 4 r1) as [[id r2]|?|] eqn:E2; cbn [bind] in H; try discriminate. apply exact_past in E2; [|exact L1]. destruct E2 as (L2 & P2 & B2 & _ & _). destruct (B2 eq_refl) as [B2' _].
  split; [lia|]. split; [exact NS|].
  destruct (negb (forallb valid_ident_byte id)).
  { destruct (is_strict m); [discriminate|]. injection H as <- <-. now apply end_stuck. }
  change (256 ^ 4) with (2 ^ 32) in R1.
  match type of H with bind ?z _ = _ => destruct z as [[[len ext] r3]|?|] eqn:E3 end; cbn [bind] in H; try discriminate.
  assert (X : lim r3 /\ r_pos r + 8 <= r_pos r3 /\ (ext = false -> len < 2 ^ 32)).
  { destruct (N.eqb_spec raw 0).
    - unfold msub in E3. destruct (r_pos (seek_end data r2) <? r_pos r2) eqn:EL; cbn [bind] in E3; [discriminate|]. injection E3 as <- <- <-.
      assert (LE : lim (seek_end data r2)) by now apply end_stuck. destruct (start_ahead (r_pos r2) _ LE) as [A B].
      split; [exact A|]. unfold lim in L2. unfold seek_end in *. destruct (r_bound r2) as [b|] eqn:EB; [|destruct L2]. cbn in *. unfold seek_start in *; cbn in *. split; [|intros _; lia].
      destruct (b_len b <? r_pos r2); cbn; lia.
    - destruct (N.eqb_spec raw 1).
      + destruct (rd_be data 8 r2) as [[l8 r4]|?|] eqn:E4; cbn [bind] in E3; try discriminate. injection E3 as <- <- <-. apply be_past in E4; [|exact L2]. destruct E4 as (L4 & P4 & _). split; [exact L4|]. split; [lia|discriminate].
      + injection E3 as <- <- <-. split; [exact L2|]. split; [lia|intros _; exact R1]. }
  destruct X as (L3 & P3 & R3). destruct (len <? 8) eqn:E8; [discriminate|]. destruct (size <? len - 8).
  - destruct (_ || _) in H; [|discriminate]. injection H as <- <-. now apply end_stuck.
  - injection H as <- <-. split; [split; assumption|]. split; cbn; [lia|exact R3].
Qed.
Lemma chunk_past : forall name size m r s n r', lim r -> freeform_chunk data name size m r = Ok (s, n, r') -> past 0 r r'.
Proof.
  intros name size m r s n r' HL H. unfold freeform_chunk in H. destruct (read_head data size m r) as [[[h|] r1]|?|] eqn:E; cbn [bind] in H; try discriminate.
  apply head_past in E; [|exact HL]. destruct E as (_ & _ & [L1 P1] & G1). destruct (negb (list_eqb (h_id h) name)); [discriminate|]. destruct (h_len h <? 12) eqn:E12; [discriminate|]. destruct (size <? h_len h); [discriminate|].
  destruct (seek_cur 4 r1) as [r2|?|] eqn:E2; cbn [bind] in H; try discriminate. apply cur_past in E2; [|exact L1|lia]. destruct E2 as (L2 & P2 & _).
  destruct (rd_exact data (h_len h - 12) r2) as [[c r3]|?|] eqn:E3; cbn [bind] in H; try discriminate. apply exact_past in E3; [|exact L2]. destruct E3 as (L3 & P3 & _).
  destruct (mtext (utf8_decode c)) as [t|?|]; cbn [bind] in H; try discriminate. injection H as <- <- <-. split; [exact L3|lia].
Qed.
Definition info_good (a : atom_info) : Prop := 8 <= a_len a /\ (a_ext a = false -> a_len a < 2 ^ 32).
Lemma info_past : forall size m r o r', lim r -> read_info data size m r = Ok (o, r') ->
  r_pos r + 8 <= lenN data /\ ~ stuck r /\ match o with Some a => past 8 r r' /\ info_good a | None => lim r' /\ stuck r' end.
Proof.
  intros size m r o r' HL H. unfold read_info in H. destruct (read_head data size m r) as [[[h|] r1]|?|] eqn:E; cbn [bind] in H; try discriminate; apply head_past in E; auto; destruct E as (A & B & C).
  - destruct C as [[L1 P1] G]. split; [exact A|]. split; [exact B|]. destruct (list_eqb (h_id h) ($"----")).
    + destruct (size <? 8); [discriminate|]. destruct (size - 8 <? 8); [discriminate|].
      destruct (parse_freeform data (h_len h - 8) m r1) as [[i r2]|?|] eqn:E2; cbn [bind] in H; try discriminate. injection H as <- <-. split; [|exact G].
      unfold parse_freeform in E2. destruct (h_len h - 8 <? 24); [discriminate|].
      destruct (freeform_chunk data ($"mean") _ m r1) as [[[s1 n1] r3]|?|] eqn:E3; cbn [bind] in E2; try discriminate. apply chunk_past in E3; [|exact L1]. destruct E3 as [L3 P3].
      destruct (freeform_chunk data ($"name") _ m r3) as [[[s2 n2] r4]|?|] eqn:E4; cbn [bind] in E2; try discriminate. apply chunk_past in E4; [|exact L3]. destruct E4 as [L4 P4].
      injection E2 as <- <-. split; [exact L4|lia].
    + injection H as <- <-. split; [split; assumption|exact G].
  - injection H as <- <-. auto.
Qed.
Lemma next_past : forall m r o r', lim r -> next data m r = Ok (o, r') ->
  match o with Some a => r_pos r + 8 <= lenN data /\ ~ stuck r /\ past 8 r r' /\ info_good a | None => lim r' /\ stuck r' end.
Proof.
  intros m r o r' HL H. unfold next in H. pose proof HL as HL'. unfold lim in HL'. destruct (r_bound r) as [b|] eqn:E; [|destruct HL']. destruct (N.eqb_spec (b_rem b) 0).
  - injection H as <- <-. split; [exact HL|]. unfold stuck. now rewrite E.
  - destruct (b_rem b <? 8); [discriminate|]. apply info_past in H; [|exact HL]. destruct H as (A & B & C). destruct o; [|exact C]. repeat split; try apply C; auto.
Qed.
Lemma skip_ahead : forall ext len r r', lim r -> 8 <= len -> (ext = false -> len < 2 ^ 32) -> skip_atom ext len r = Ok r' -> ahead r r'.
Proof.
  intros ext len r r' HL H8 HB H. unfold skip_atom in H. destruct ext; cbn [negb] in H.
  - destruct (U64_MAX <? r_pos r + (len - 8)); [discriminate|]. injection H as <-. destruct (start_ahead (r_pos r + (len - 8)) r HL) as [A B]. split; [exact A|]. destruct B as [B|B]; [now left|right; lia].
  - rewrite N.mod_small in H by now apply HB. apply cur_past in H; [|exact HL|lia]. destruct H as (A & B & _). split; [exact A|right; lia].
Qed.
(** Enough fuel for what lies ahead *)
Definition enough (fuel : nat) (r : reader) : Prop := (1 <= fuel)%nat /\ (lenN data + 8 <= r_pos r + 8 * N.of_nat fuel \/ stuck r).
Lemma enough_start : forall k r, enough (S (length data) + k) r.
Proof. intros k r. split; [lia|left]. unfold lenN. lia. Qed.
Lemma enough_step : forall fuel r r' r'', enough (S fuel) r -> r_pos r + 8 <= lenN data -> ~ stuck r -> past 8 r r' -> ahead r' r'' -> enough fuel r''.
Proof. intros fuel r r' r'' [_ [E|E]] A B [_ P] [_ Q]; [|contradiction]. split; [lia|]. destruct Q as [Q|Q]; [now right|left; lia]. Qed.
Lemma ahead_past : forall n r r', past n r r' -> ahead r r'.
Proof. intros n r r' [A B]. split; [exact A|right; lia]. Qed.
Lemma ahead_refl : forall r, lim r -> ahead r r.
Proof. intros r H. split; [exact H|right; lia]. Qed.
Lemma past_trans : forall n m r r1 r2, past n r r1 -> past m r1 r2 -> past (n + m) r r2.
Proof. intros n m r r1 r2 [A B] [C D]. split; [exact C|lia]. Qed.
Lemma past_ahead : forall n r r1 r2, past n r r1 -> ahead r1 r2 -> ahead r r2.
Proof. intros n r r1 r2 [A B] [C [D|D]]; (split; [exact C|]); [now left|right; lia]. Qed.

(** One loop after the other *)
Ltac dig H := match type of H with next data ?m ?r = _ => idtac end.
Lemma moov_find_fuel : forall f g m r, lim r -> enough f r -> enough g r -> moov_find f data m r = moov_find g data m r.
Proof.
  induction f as [|f IH]; intros [|g] m r HL HF HG; try (destruct HF as [? _]; lia); try (destruct HG as [? _]; lia). cbn [moov_find]. destruct (next data m r) as [[[i|] r1]|?|] eqn:E; try reflexivity.
  apply next_past in E; [|exact HL]. destruct E as (A & B & C & G1 & G2). destruct (is_fourcc _ _); [reflexivity|]. destruct (skip_atom (a_ext i) (a_len i) r1) as [r2|?|] eqn:E2; cbn [bind]; try reflexivity.
  apply skip_ahead in E2; [|apply C|exact G1|exact G2]. apply IH; [apply E2|eapply enough_step; eauto|eapply enough_step; eauto].
Qed.
Lemma mdat_loop_fuel : forall f g m r, lim r -> enough f r -> enough g r -> mdat_loop f data m r = mdat_loop g data m r.
Proof.
  induction f as [|f IH]; intros [|g] m r HL HF HG; try (destruct HF as [? _]; lia); try (destruct HG as [? _]; lia). cbn [mdat_loop]. destruct (next data m r) as [[[i|] r1]|?|] eqn:E; try reflexivity.
  apply next_past in E; [|exact HL]. destruct E as (A & B & C & G1 & G2). destruct (is_fourcc _ _); [reflexivity|]. destruct (skip_atom (a_ext i) (a_len i) r1) as [r2|?|] eqn:E2; cbn [bind]; try reflexivity.
  apply skip_ahead in E2; [|apply C|exact G1|exact G2]. apply IH; [apply E2|eapply enough_step; eauto|eapply enough_step; eauto].
Qed.
Lemma find_in_fuel : forall f g m want limit seen r, lim r -> enough f r -> enough g r -> find_in f data m want limit seen r = find_in g data m want limit seen r.
Proof.
  induction f as [|f IH]; intros [|g] m want limit seen r HL HF HG; try (destruct HF as [? _]; lia); try (destruct HG as [? _]; lia). cbn [find_in]. destruct (limit <=? seen); [reflexivity|].
  destruct (next data m r) as [[[i|] r1]|?|] eqn:E; cbn [bind]; try reflexivity.
  apply next_past in E; [|exact HL]. destruct E as (A & B & C & G1 & G2). destruct (is_fourcc _ _); [reflexivity|]. destruct (skip_atom (a_ext i) (a_len i) r1) as [r2|?|] eqn:E2; cbn [bind]; try reflexivity.
  apply skip_ahead in E2; [|apply C|exact G1|exact G2]. apply IH; [apply E2|eapply enough_step; eauto|eapply enough_step; eauto].
Qed.
Lemma find_in_past : forall f m want limit seen r o r', lim r -> find_in f data m want limit seen r = Ok (o, r') -> match o with Some a => past 8 r r' /\ info_good a | None => ahead r r' end.
Proof.
  induction f as [|f IH]; intros m want limit seen r o r' HL H; cbn [find_in] in H; (destruct (limit <=? seen); [injection H as <- <-; now apply ahead_refl|]); [discriminate|].
  destruct (next data m r) as [[[i|] r1]|?|] eqn:E; cbn [bind] in H; try discriminate; apply next_past in E; auto.
  - destruct E as (A & B & C & G). destruct (is_fourcc _ _); [injection H as <- <-; auto|]. destruct (skip_atom (a_ext i) (a_len i) r1) as [r2|?|] eqn:E2; cbn [bind] in H; try discriminate.
    apply skip_ahead in E2; [|apply C|apply G|apply G]. pose proof H as H'. apply IH in H; [|apply E2]. destruct E2 as [E2 [ST|E2']].
    + (* nothing is left *) destruct f as [|f]; cbn [find_in] in H'; destruct (limit <=? _) in H'; try discriminate; try (injection H' as <- <-; split; [exact E2|now left]).
      unfold next in H'. unfold stuck in ST. destruct (r_bound r2) as [b|] eqn:EB; [|destruct ST]. rewrite ST in H'. cbn in H'. injection H' as <- <-. split; [exact E2|left]. unfold stuck. now rewrite EB.
    + destruct o as [a|]; [destruct H as [[H1 H2] H3]; split; [split; [exact H1|destruct C; lia]|exact H3]|]. destruct H as [H1 [H2|H2]]; (split; [exact H1|]); [now left|right; destruct C; lia].
  - injection H as <- <-. split; [apply E|now left].
Qed.
Lemma find_child_fuel : forall f g len want m r, lim r -> enough f r -> enough g r -> find_child f data len want m r = find_child g data len want m r.
Proof.
  induction f as [|f IH]; intros [|g] len want m r HL HF HG; try (destruct HF as [? _]; lia); try (destruct HG as [? _]; lia). cbn [find_child]. destruct (len <=? 8); [reflexivity|].
  destruct (read_info data len m r) as [[[i|] r1]|?|] eqn:E; cbn [bind]; try reflexivity.
  apply info_past in E; [|exact HL]. destruct E as (A & B & C & G1 & G2). destruct (is_fourcc _ _); [reflexivity|]. destruct (skip_atom (a_ext i) (a_len i) r1) as [r2|?|] eqn:E2; cbn [bind]; try reflexivity.
  apply skip_ahead in E2; [|apply C|exact G1|exact G2]. apply IH; [apply E2|eapply enough_step; eauto|eapply enough_step; eauto].
Qed.
Lemma find_child_past : forall f len want m r o r', lim r -> find_child f data len want m r = Ok (o, r') -> match o with Some a => past 8 r r' /\ info_good a | None => ahead r r' end.
Proof.
  induction f as [|f IH]; intros len want m r o r' HL H; cbn [find_child] in H; (destruct (len <=? 8); [injection H as <- <-; now apply ahead_refl|]); [discriminate|].
  destruct (read_info data len m r) as [[[i|] r1]|?|] eqn:E; cbn [bind] in H; try discriminate; apply info_past in E; auto; destruct E as (A & B & C).
  - destruct C as [C G]. destruct (is_fourcc _ _); [injection H as <- <-; auto|]. destruct (skip_atom (a_ext i) (a_len i) r1) as [r2|?|] eqn:E2; cbn [bind] in H; try discriminate.
    apply skip_ahead in E2; [|apply C|apply G|apply G]. pose proof H as H'. apply IH in H; [|apply E2]. destruct E2 as [E2 [ST|E2']].
    + destruct f as [|f]; cbn [find_child] in H'; destruct (_ <=? 8) in H'; try discriminate; try (injection H' as <- <-; split; [exact E2|now left]).
      destruct (read_info data (len - a_len i) m r2) as [[[i2|] r3]|?|] eqn:E3; cbn [bind] in H'; try discriminate; apply info_past in E3; auto; destruct E3 as (_ & N3 & _); contradiction.
    + destruct o as [a|]; [destruct H as [[H1 H2] H3]; split; [split; [exact H1|destruct C; lia]|exact H3]|]. destruct H as [H1 [H2|H2]]; (split; [exact H1|]); [now left|right; destruct C; lia].
  - injection H as <- <-. split; [apply C|left; apply C].
Qed.
Lemma stts_fuel : forall f g count r, lim r -> enough f r -> enough g r -> stts_entries f data count r = stts_entries g data count r.
Proof.
  induction f as [|f IH]; intros [|g] count r HL HF HG; try (destruct HF as [? _]; lia); try (destruct HG as [? _]; lia). cbn [stts_entries]. destruct (count =? 0); [reflexivity|].
  destruct (rd_be data 4 r) as [[x r1]|?|] eqn:E; cbn [bind]; try reflexivity. apply be_past in E; [|exact HL]. destruct E as (L1 & P1 & B1 & _). destruct (B1 eq_refl) as [B1' NS].
  destruct (rd_be data 4 r1) as [[y r2]|?|] eqn:E; cbn [bind]; try reflexivity. apply be_past in E; [|exact L1]. destruct E as (L2 & P2 & B2 & _). destruct (B2 eq_refl) as [B2' _].
  rewrite (IH g (count - 1) r2); [reflexivity|exact L2| |]; (eapply enough_step with (r := r) (r' := r2); eauto; [lia|split; [exact L2|lia]|now apply ahead_refl]).
Qed.
Lemma stts_past : forall f count r l r', lim r -> stts_entries f data count r = Ok (l, r') -> past 0 r r'.
Proof.
  induction f as [|f IH]; intros count r l r' HL H; cbn [stts_entries] in H; (destruct (count =? 0); [injection H as <- <-; split; [exact HL|lia]|]); [discriminate|].
  destruct (rd_be data 4 r) as [[x r1]|?|] eqn:E; cbn [bind] in H; try discriminate. apply be_past in E; [|exact HL]. destruct E as (L1 & P1 & _).
  destruct (rd_be data 4 r1) as [[y r2]|?|] eqn:E; cbn [bind] in H; try discriminate. apply be_past in E; [|exact L1]. destruct E as (L2 & P2 & _).
  destruct (stts_entries f data (count - 1) r2) as [[l' r3]|?|] eqn:E; cbn [bind] in H; try discriminate. injection H as <- <-. apply IH in E; [|exact L2]. destruct E. split; [assumption|lia].
Qed.
Lemma stbl_fuel : forall f g m limit seen r a b, lim r -> enough f r -> enough g r -> stbl_loop f data m limit seen r a b = stbl_loop g data m limit seen r a b.
Proof.
  induction f as [|f IH]; intros [|g] m limit seen r a b HL HF HG; try (destruct HF as [? _]; lia); try (destruct HG as [? _]; lia). cbn [stbl_loop]. destruct (limit <=? seen); [reflexivity|].
  destruct (next data m r) as [[[i|] r1]|?|] eqn:E; cbn [bind]; try reflexivity. apply next_past in E; [|exact HL]. destruct E as (A & B & C & G1 & G2).
  assert (GO : forall r2 x y, ahead r1 r2 -> stbl_loop f data m limit (seen + a_len i) r2 x y = stbl_loop g data m limit (seen + a_len i) r2 x y).
  { intros r2 x y H2. apply IH; [apply H2|eapply enough_step; eauto|eapply enough_step; eauto]. }
  destruct (a_ident i) as [fc|mn nm]; [|apply GO; apply ahead_refl; apply C].
  destruct (list_eqb fc ($"stsd")).
  { destruct (rd_exact data (a_len i - 8) r1) as [[c r2]|?|] eqn:E2; cbn [bind]; try reflexivity. apply exact_past in E2; [|apply C]. destruct E2 as (L2 & P2 & _). apply GO. split; [exact L2|right; lia]. }
  destruct (list_eqb fc ($"stts")).
  { unfold stts_parse. destruct (rd_be data 4 r1) as [[x r2]|?|] eqn:E2; cbn [bind]; try reflexivity. apply be_past in E2; [|apply C]. destruct E2 as (L2 & P2 & _).
    destruct (rd_be data 4 r2) as [[y r3]|?|] eqn:E3; cbn [bind]; try reflexivity. apply be_past in E3; [|exact L2]. destruct E3 as (L3 & P3 & _).
    destruct (stts_entries (S (length data)) data y r3) as [[l r4]|?|] eqn:E4; cbn [bind]; try reflexivity. apply stts_past in E4; [|exact L3]. destruct E4 as [L4 P4]. apply GO. split; [exact L4|right; lia]. }
  destruct (skip_atom (a_ext i) (a_len i) r1) as [r2|?|] eqn:E2; cbn [bind]; try reflexivity. apply skip_ahead in E2; [|apply C|exact G1|exact G2]. now apply GO.
Qed.
Lemma mdia_fuel : forall f g m limit seen r t, lim r -> enough f r -> enough g r -> mdia_loop f data m limit seen r t = mdia_loop g data m limit seen r t.
Proof.
  induction f as [|f IH]; intros [|g] m limit seen r t HL HF HG; try (destruct HF as [? _]; lia); try (destruct HG as [? _]; lia). cbn [mdia_loop]. destruct (limit <=? seen); [reflexivity|].
  destruct (next data m r) as [[[i|] r1]|?|] eqn:E; cbn [bind]; try reflexivity. apply next_past in E; [|exact HL]. destruct E as (A & B & C & G1 & G2).
  assert (GO : forall r2 x, ahead r1 r2 -> mdia_loop f data m limit (seen + a_len i) r2 x = mdia_loop g data m limit (seen + a_len i) r2 x).
  { intros r2 x H2. apply IH; [apply H2|eapply enough_step; eauto|eapply enough_step; eauto]. }
  assert (SK : forall x, (let? r2 := skip_atom (a_ext i) (a_len i) r1 in mdia_loop f data m limit (seen + a_len i) r2 x) = (let? r2 := skip_atom (a_ext i) (a_len i) r1 in mdia_loop g data m limit (seen + a_len i) r2 x)).
  { intros x. destruct (skip_atom (a_ext i) (a_len i) r1) as [r2|?|] eqn:E2; cbn [bind]; try reflexivity. apply skip_ahead in E2; [|apply C|exact G1|exact G2]. now apply GO. }
  destruct (is_fourcc ($"mdhd") (a_ident i)); [apply SK|]. destruct (is_fourcc ($"hdlr") (a_ident i)).
  { destruct (a_len i <? 20) eqn:E20; [apply SK|]. destruct (seek_cur 8 r1) as [r2|?|] eqn:E2; cbn [bind]; try reflexivity. apply cur_past in E2; [|apply C|lia]. destruct E2 as (L2 & P2 & _).
    destruct (rd_exact data 4 r2) as [[h r3]|?|] eqn:E3; cbn [bind]; try reflexivity. apply exact_past in E3; [|exact L2]. destruct E3 as (L3 & P3 & _).
    destruct (skip_atom (a_ext i) (a_len i - 12) r3) as [r4|?|] eqn:E4; cbn [bind]; try reflexivity. apply skip_ahead in E4; [|exact L3|lia|intros X; specialize (G2 X); lia]. apply GO. destruct E4 as [L4 [S4|P4]]; (split; [exact L4|]); [now left|right; lia]. }
  destruct (is_fourcc ($"minf") (a_ident i)); [apply GO; apply ahead_refl; apply C|apply SK].
Qed.
Lemma indicator_past : forall m r o r', lim r -> type_indicator data m r = Ok (o, r') -> past 0 r r'.
Proof.
  intros m r o r' HL H. unfold type_indicator in H. destruct (rd_be_own data 1 r) as [[x r1]|?|] eqn:E; cbn [bind] in H; try discriminate. apply own_past in E; [|exact HL]. destruct E as (L1 & P1 & _).
  destruct (negb (x =? 0)); [destruct (is_strict m); [discriminate|]; injection H as <- <-; split; [exact L1|lia]|].
  destruct (rd_be_own data 3 r1) as [[y r2]|?|] eqn:E; cbn [bind] in H; try discriminate. apply own_past in E; [|exact L1]. destruct E as (L2 & P2 & _). injection H as <- <-. split; [exact L2|lia].
Qed.
Lemma data_loop_fuel : forall f g m n pos r acc, lim r -> enough f r -> enough g r -> data_loop f data m n pos r acc = data_loop g data m n pos r acc.
Proof.
  induction f as [|f IH]; intros [|g] m n pos r acc HL HF HG; try (destruct HF as [? _]; lia); try (destruct HG as [? _]; lia). cbn [data_loop]. destruct (n <=? pos); [reflexivity|].
  destruct (next data m r) as [[[i|] r1]|?|] eqn:E; cbn [bind]; try reflexivity. apply next_past in E; [|exact HL]. destruct E as (A & B & C & G1 & G2).
  assert (GO : forall r2 p x, ahead r1 r2 -> data_loop f data m n p r2 x = data_loop g data m n p r2 x).
  { intros r2 p x H2. apply IH; [apply H2|eapply enough_step; eauto|eapply enough_step; eauto]. }
  destruct (a_len i <? 16) eqn:E16; [reflexivity|]. destruct (negb (is_fourcc ($"data") (a_ident i))).
  { destruct (is_strict m); [reflexivity|]. destruct (skip_atom (a_ext i) (a_len i) r1) as [r2|?|] eqn:E2; cbn [bind]; try reflexivity. apply skip_ahead in E2; [|apply C|exact G1|exact G2]. now apply GO. }
  destruct (type_indicator data m r1) as [[[t|] r2]|?|] eqn:E2; cbn [bind]; try reflexivity; apply indicator_past in E2; try apply C; destruct E2 as [L2 P2].
  - destruct (seek_cur 4 r2) as [r3|?|] eqn:E3; cbn [bind]; try reflexivity. apply cur_past in E3; [|exact L2|lia]. destruct E3 as (L3 & P3 & _).
    destruct (rd_exact data (a_len i - 16) r3) as [[c r4]|?|] eqn:E4; cbn [bind]; try reflexivity. apply exact_past in E4; [|exact L3]. destruct E4 as (L4 & P4 & _). apply GO. split; [exact L4|right; lia].
  - destruct (seek_cur _ r2) as [r3|?|] eqn:E3; cbn [bind]; try reflexivity. apply cur_past in E3; [|exact L2|lia]. destruct E3 as (L3 & P3 & _). apply GO. split; [exact L3|right; lia].
Qed.
Lemma data_loop_ahead : forall f m n pos r acc l r', lim r -> data_loop f data m n pos r acc = Ok (l, r') -> ahead r r'.
Proof.
  induction f as [|f IH]; intros m n pos r acc l r' HL H; cbn [data_loop] in H; (destruct (n <=? pos); [injection H as <- <-; now apply ahead_refl|]); [discriminate|].
  destruct (next data m r) as [[[i|] r1]|?|] eqn:E; cbn [bind] in H; try discriminate; apply next_past in E; auto; [|injection H as <- <-; split; [apply E|left; apply E]].
  destruct E as (A & B & C & G1 & G2).
  assert (ST : forall r2 p x, stuck r2 -> lim r2 -> data_loop f data m n p r2 x = Ok (l, r') -> r' = r2).
  { intros r2 p x S2 L2 H2. destruct f as [|f']; cbn [data_loop] in H2; destruct (n <=? p); try discriminate; try (now injection H2). unfold next in H2. unfold stuck in S2. destruct (r_bound r2) as [b|]; [|destruct S2]. rewrite S2 in H2. cbn in H2. now injection H2. }
  assert (GO : forall r2 p x, ahead r1 r2 -> data_loop f data m n p r2 x = Ok (l, r') -> ahead r r').
  { intros r2 p x [L2 [S2|P2]] H2; [rewrite (ST _ _ _ S2 L2 H2); split; [exact L2|now left]|]. apply IH in H2; [|exact L2]. destruct H2 as [L3 [S3|P3]]; (split; [exact L3|]); [now left|right; destruct C; lia]. }
  destruct (a_len i <? 16) eqn:E16. { destruct (is_strict m); [discriminate|]. injection H as <- <-. eapply ahead_past; eauto. }
  destruct (negb (is_fourcc ($"data") (a_ident i))).
  { destruct (is_strict m); [discriminate|]. destruct (skip_atom (a_ext i) (a_len i) r1) as [r2|?|] eqn:E2; cbn [bind] in H; try discriminate. apply skip_ahead in E2; [|apply C|exact G1|exact G2]. eauto. }
  destruct (type_indicator data m r1) as [[[t|] r2]|?|] eqn:E2; cbn [bind] in H; try discriminate; apply indicator_past in E2; try apply C; destruct E2 as [L2 P2].
  - destruct (seek_cur 4 r2) as [r3|?|] eqn:E3; cbn [bind] in H; try discriminate. apply cur_past in E3; [|exact L2|lia]. destruct E3 as (L3 & P3 & _).
    destruct (rd_exact data (a_len i - 16) r3) as [[c r4]|?|] eqn:E4; cbn [bind] in H; try discriminate. apply exact_past in E4; [|exact L3]. destruct E4 as (L4 & P4 & _). eapply GO; [|exact H]. split; [exact L4|right; lia].
  - destruct (seek_cur _ r2) as [r3|?|] eqn:E3; cbn [bind] in H; try discriminate. apply cur_past in E3; [|exact L2|lia]. destruct E3 as (L3 & P3 & _). eapply GO; [|exact H]. split; [exact L3|right; lia].
Qed.
Lemma inner_ahead : forall m i r l r', lim r -> parse_data_inner data m i r = Ok (l, r') -> ahead r r'.
Proof. intros m i r l r' HL H. unfold parse_data_inner in H. destruct (_ <? _) in H; [discriminate|]. eapply data_loop_ahead; eauto. Qed.
Lemma parse_data_ahead : forall m i r tag l r', lim r -> parse_data data m i r tag = Ok (l, r') -> ahead r r'.
Proof.
  intros m i r tag l r' HL H. unfold parse_data in H. destruct (parse_data_inner data m i r) as [[x r1]|?|] eqn:E; cbn [bind] in H; try discriminate. apply inner_ahead in E; [|exact HL].
  destruct x; [injection H as <- <-; exact E|]. destruct (interpret_all _); [injection H as <- <-; exact E| |discriminate]. destruct (is_strict m); [discriminate|]. injection H as <- <-. exact E.
Qed.
Lemma covr_ahead : forall m i r tag l r', lim r -> handle_covr data m i r tag = Ok (l, r') -> ahead r r'.
Proof.
  intros m i r tag l r' HL H. unfold handle_covr in H. destruct (parse_data_inner data m i r) as [[x r1]|?|] eqn:E; cbn [bind] in H; try discriminate. apply inner_ahead in E; [|exact HL].
  destruct x; [injection H as <- <-; exact E|]. destruct (covr_data _); [injection H as <- <-; exact E|]. destruct (is_strict m); [discriminate|]. injection H as <- <-. exact E.
Qed.
Lemma ilst_fuel : forall f g o r tag gs, lim r -> enough f r -> enough g r -> ilst_loop f data o r tag gs = ilst_loop g data o r tag gs.
Proof.
  induction f as [|f IH]; intros [|g] o r tag gs HL HF HG; try (destruct HF as [? _]; lia); try (destruct HG as [? _]; lia). cbn [ilst_loop]. cbv zeta.
  destruct (next data (mo_mode o) r) as [[[i|] r1]|?|] eqn:E; cbn [bind]; try reflexivity. apply next_past in E; [|exact HL]. destruct E as (A & B & C & G1 & G2).
  assert (GO : forall r2 x y, ahead r1 r2 -> ilst_loop f data o r2 x y = ilst_loop g data o r2 x y).
  { intros r2 x y H2. apply IH; [apply H2|eapply enough_step; eauto|eapply enough_step; eauto]. }
  assert (SK : forall x y, (let? r2 := skip_atom (a_ext i) (a_len i) r1 in ilst_loop f data o r2 x y) = (let? r2 := skip_atom (a_ext i) (a_len i) r1 in ilst_loop g data o r2 x y)).
  { intros x y. destruct (skip_atom (a_ext i) (a_len i) r1) as [r2|?|] eqn:E2; cbn [bind]; try reflexivity. apply skip_ahead in E2; [|apply C|exact G1|exact G2]. now apply GO. }
  assert (LC : lim r1) by apply C.
  destruct (_ || _); [apply SK|]. destruct (is_fourcc ($"covr") (a_ident i)).
  { destruct (mo_cover o); [|apply SK]. destruct (handle_covr data (mo_mode o) i r1 tag) as [[x r2]|?|] eqn:E2; cbn [bind]; try reflexivity. apply covr_ahead in E2; auto. }
  destruct (is_fourcc ($"gnre") (a_ident i)).
  { destruct (parse_data_inner data (mo_mode o) i r1) as [[x r2]|?|] eqn:E2; cbn [bind]; try reflexivity. apply inner_ahead in E2; auto. destruct (mo_implicit o); apply GO; exact E2. }
  destruct (is_fourcc ($"plID") (a_ident i)).
  { destruct (parse_data_inner data (mo_mode o) i r1) as [[x r2]|?|] eqn:E2; cbn [bind]; try reflexivity. apply inner_ahead in E2; auto. }
  destruct (existsb _ FLAG_ATOMS).
  { destruct (parse_data_inner data (mo_mode o) i r1) as [[x r2]|?|] eqn:E2; cbn [bind]; try reflexivity. apply inner_ahead in E2; auto. }
  destruct (parse_data data (mo_mode o) i r1 tag) as [[x r2]|?|] eqn:E2; cbn [bind]; try reflexivity. apply parse_data_ahead in E2; auto.
Qed.
Lemma full_past : forall r b r', lim r -> meta_is_full data r = Ok (b, r') -> past 0 r r'.
Proof.
  intros r b r' HL H. unfold meta_is_full in H. destruct (rd_be data 4 r) as [[x r1]|?|] eqn:E; cbn [bind] in H; try discriminate. apply be_past in E; [|exact HL]. destruct E as (L1 & P1 & _).
  destruct (rd_exact data 4 r1) as [[y r2]|?|] eqn:E; cbn [bind] in H; try discriminate. apply exact_past in E; [|exact L1]. destruct E as (L2 & P2 & _).
  destruct (existsb _ _) in H; match type of H with bind ?z _ = _ => destruct z as [r3|?|] eqn:E3 end; cbn [bind] in H; try discriminate; injection H as <- <-; (split; [eapply cur_lim; eauto|]);
    unfold seek_cur in E3; destruct (_ <? 0)%Z in E3; try discriminate; injection E3 as <-; cbn; lia.
Qed.
Lemma udta_ahead : forall o len r x r', lim r -> ilst_from_udta data o len r = Ok (x, r') -> ahead r r'.
Proof.
  intros o len r x r' HL H. unfold ilst_from_udta in H. destruct (find_in _ data (mo_mode o) ($"meta") len 8 r) as [[[meta|] r1]|?|] eqn:E; cbn [bind] in H; try discriminate; apply find_in_past in E; auto; [|injection H as <- <-; exact E].
  destruct E as [P1 G1]. destruct (meta_is_full data r1) as [[full r2]|?|] eqn:E; cbn [bind] in H; try discriminate. apply full_past in E; [|apply P1].
  destruct (find_in _ data (mo_mode o) ($"ilst") _ _ r2) as [[[i|] r3]|?|] eqn:E3; cbn [bind] in H; try discriminate; apply find_in_past in E3; try apply E.
  - destruct E3 as [P3 _]. destruct (rd_exact data (a_len i - 8) r3) as [[c r4]|?|] eqn:E4; cbn [bind] in H; try discriminate. apply exact_past in E4; [|apply P3]. destruct E4 as (L4 & P4 & _).
    destruct (parse_ilst o c); cbn [bind] in H; try discriminate. injection H as <- <-. split; [exact L4|]. right. destruct P1, E, P3. lia.
  - injection H as <- <-. eapply past_ahead; [eapply past_trans; eauto|exact E3].
Qed.
Lemma moov_parse_fuel : forall f g o r t il, lim r -> enough f r -> enough g r -> moov_parse f data o r t il = moov_parse g data o r t il.
Proof.
  induction f as [|f IH]; intros [|g] o r t il HL HF HG; try (destruct HF as [? _]; lia); try (destruct HG as [? _]; lia). cbn [moov_parse].
  destruct (next data (mo_mode o) r) as [[[i|] r1]|?|] eqn:E; cbn [bind]; try reflexivity. apply next_past in E; [|exact HL]. destruct E as (A & B & C & G1 & G2).
  assert (GO : forall r2 x y, ahead r1 r2 -> moov_parse f data o r2 x y = moov_parse g data o r2 x y).
  { intros r2 x y H2. apply IH; [apply H2|eapply enough_step; eauto|eapply enough_step; eauto]. }
  destruct (_ && _).
  { destruct (find_child (S (length data)) data (a_len i) ($"mdia") (mo_mode o) r1) as [[[x|] r2]|?|] eqn:E2; cbn [bind]; try reflexivity; apply find_child_past in E2; try apply C; [|now apply GO].
    destruct E2 as [P2 [G3 G4]]. destruct (skip_atom (a_ext x) (a_len x) r2) as [r3|?|] eqn:E3; cbn [bind]; try reflexivity. apply skip_ahead in E3; [|apply P2|exact G3|exact G4]. apply GO. eapply past_ahead; eauto. }
  destruct (_ && _).
  { destruct (ilst_from_udta data o (a_len i - 8) r1) as [[x r2]|?|] eqn:E2; cbn [bind]; try reflexivity. apply udta_ahead in E2; [|apply C]. now apply GO. }
  destruct (skip_atom (a_ext i) (a_len i) r1) as [r2|?|] eqn:E2; cbn [bind]; try reflexivity. apply skip_ahead in E2; [|apply C|exact G1|exact G2]. now apply GO.
Qed.
Lemma stsd_fuel : forall f g m count r p, lim r -> enough f r -> enough g r -> stsd_loop f data m count r p = stsd_loop g data m count r p.
Proof.
  induction f as [|f IH]; intros [|g] m count r p HL HF HG; try (destruct HF as [? _]; lia); try (destruct HG as [? _]; lia). cbn [stsd_loop]. destruct (count =? 0); [reflexivity|].
  destruct (next data m r) as [[[i|] r1]|?|] eqn:E; cbn [bind]; try reflexivity. pose proof E as EN. apply next_past in E; [|exact HL]. destruct E as (A & B & C & G1 & G2).
  destruct (a_ext i); [reflexivity|]. destruct (a_ident i) as [fc|]; [|reflexivity].
  destruct (seek_cur 8 r1) as [r2|?|] eqn:E2; cbn [bind]; try reflexivity. apply cur_past in E2; [|apply C|lia]. destruct E2 as (L2 & P2 & _).
  destruct (rd_be_own data 2 r2) as [[v r3]|?|] eqn:E3; cbn [bind]; try reflexivity. apply own_past in E3; [|exact L2]. destruct E3 as (L3 & P3 & _). destruct (2 <? v); [reflexivity|].
  destruct (seek_cur 6 r3) as [r4|?|] eqn:E4; cbn [bind]; try reflexivity. apply cur_past in E4; [|exact L3|lia]. destruct E4 as (L4 & P4 & _).
  destruct (rd_be_own data 2 r4) as [[ch r5]|?|] eqn:E5; cbn [bind]; try reflexivity. apply own_past in E5; [|exact L4]. destruct E5 as (L5 & P5 & _).
  destruct (seek_cur 6 r5) as [r6|?|] eqn:E6; cbn [bind]; try reflexivity. apply cur_past in E6; [|exact L5|lia]. destruct E6 as (L6 & P6 & _).
  destruct (rd_be_own data 4 r6) as [[rt r7]|?|] eqn:E7; cbn [bind]; try reflexivity. apply own_past in E7; [|exact L6]. destruct E7 as (L7 & P7 & _).
  match goal with |- bind ?z _ = _ => destruct z as [r8|?|] eqn:E8 end; cbn [bind]; try reflexivity.
  assert (P8 : past 0 r7 r8).
  { destruct (v =? 1); [apply cur_past in E8; [|exact L7|lia]; destruct E8 as (X & Y & _); split; [exact X|lia]|]. destruct (v =? 2); [|injection E8 as <-; split; [exact L7|lia]].
    destruct (rd_be_own data 4 r7) as [[n r9]|?|] eqn:E9; cbn [bind] in E8; try discriminate. apply own_past in E9; [|exact L7]. destruct E9 as (L9 & P9 & _). apply cur_past in E8; [|exact L9|lia]. destruct E8 as (X & Y & _). split; [exact X|lia]. }
  destruct (list_eqb fc ($"mp4a")); [reflexivity|]. destruct (list_eqb fc ($"alac")); [reflexivity|]. destruct (list_eqb fc ($"fLaC")); [reflexivity|].
  destruct (skip_atom false (r_pos r8 - a_start i) r8) as [r9|?|] eqn:E9; cbn [bind]; try reflexivity.
  assert (P9 : past 8 r r9).
  { unfold skip_atom in E9. cbn [negb] in E9. split; [exact (cur_lim _ _ _ (proj1 P8) E9)|]. unfold seek_cur in E9. destruct (_ <? 0)%Z eqn:EZ in E9; [discriminate|]. injection E9 as <-. cbn. destruct C, P8. lia. }
  apply IH; [apply P9| |]; (eapply enough_step with (r := r) (r' := r9); eauto; apply ahead_refl; apply P9).
Qed.
End Loops.

(** ** Readers over the whole data: the bounds of [moov] *)
Definition over (data : bytes) (r : reader) : Prop := exists p, r = mkRd p (Some (mkBd 0 (lenN data - p) (lenN data))).
Section Over.
Variables (data : bytes).
Hypotheses (DOK : bytes_ok data) (LS : lenN data + 8 < 2 ^ 32).
Lemma over_lim : forall r, over data r -> lim (lenN data) r.
Proof. intros r [p ->]. unfold lim. cbn. lia. Qed.
Lemma over_exact : forall n r x r', over data r -> rd_exact data n r = Ok (x, r') -> over data r'.
Proof.
  intros n r x r' [p ->] H. unfold rd_exact, rd_inner in H. destruct (n =? 0); [injection H as <- <-; now exists p|]. cbn in H. destruct (_ =? 0); [discriminate|]. destruct (read_exact _ _) as [[? ?]|]; cbn in H; [|discriminate].
  injection H as <- <-. exists (p + n). do 3 f_equal. lia.
Qed.
Lemma over_be : forall n r x r', over data r -> rd_be data n r = Ok (x, r') -> over data r'.
Proof. intros n r x r' O H. unfold rd_be in H. destruct (rd_exact data n r) as [[? ?]|?|] eqn:E; cbn in H; try discriminate. injection H as <- <-. eapply over_exact; eauto. Qed.
Lemma over_cur : forall s r r', over data r -> (0 <= s)%Z -> seek_cur s r = Ok r' -> over data r'.
Proof.
  intros s r r' [p ->] HS H. unfold seek_cur in H. cbn in H. destruct (_ <? 0)%Z in H; [discriminate|]. injection H as <-. replace (s <? 0)%Z with false by lia. exists (p + Z.to_N s). f_equal; [lia|]. do 2 f_equal. lia.
Qed.
Lemma over_start : forall s r, over data r -> over data (seek_start s r).
Proof.
  intros s r [p ->]. unfold seek_start. cbn. destruct (N.ltb_spec (lenN data) s); [exists (lenN data); do 3 f_equal; lia|exists s; do 3 f_equal; lia].
Qed.
Lemma over_end : forall r, over data r -> over data (seek_end data r).
Proof. intros r [p ->]. unfold seek_end. cbn. exists (lenN data). do 3 f_equal. lia. Qed.
Lemma over_head : forall size m r o r', over data r -> read_head data size m r = Ok (o, r') -> over data r' /\ match o with Some h => h_start h = r_pos r /\ h_len h <= size + 8 | None => True end.
Proof.
  intros size m r o r' O H. unfold read_head in H. destruct (rd_be data 4 r) as [[raw r1]|?|] eqn:E1; cbn [bind] in H; try discriminate. apply over_be in E1; [|exact O].
  destruct (rd_exact data 4 r1) as [[id r2]|?|] eqn:E2; cbn [bind] in H; try discriminate. apply over_exact in E2; [|exact E1].
  destruct (negb (forallb valid_ident_byte id)). { destruct (is_strict m); [discriminate|]. injection H as <- <-. split; [now apply over_end|exact I]. }
  match type of H with bind ?z _ = _ => destruct z as [[[len ext] r3]|?|] eqn:E3 end; cbn [bind] in H; try discriminate.
  assert (O3 : over data r3).
  { destruct (raw =? 0); [destruct (msub _ _); cbn [bind] in E3; try discriminate; injection E3 as <- <- <-; apply over_start; now apply over_end|].
    destruct (raw =? 1); [|injection E3 as <- <- <-; exact E2]. destruct (rd_be data 8 r2) as [[? ?]|?|] eqn:E4; cbn [bind] in E3; try discriminate. injection E3 as <- <- <-. eapply over_be; eauto. }
  destruct (len <? 8) eqn:E8; [discriminate|]. destruct (size <? len - 8) eqn:ES.
  - destruct (_ || _) in H; [|discriminate]. injection H as <- <-. split; [now apply over_end|exact I].
  - injection H as <- <-. split; [exact O3|]. cbn. split; [reflexivity|lia].
Qed.
Lemma over_chunk : forall name size m r s n r', over data r -> freeform_chunk data name size m r = Ok (s, n, r') -> over data r'.
Proof.
  intros name size m r s n r' O H. unfold freeform_chunk in H. destruct (read_head data size m r) as [[[h|] r1]|?|] eqn:E; cbn [bind] in H; try discriminate. apply over_head in E; [|exact O]. destruct E as [O1 _].
  destruct (negb _); [discriminate|]. destruct (_ <? 12); [discriminate|]. destruct (_ <? _); [discriminate|]. destruct (seek_cur 4 r1) as [r2|?|] eqn:E2; cbn [bind] in H; try discriminate. apply over_cur in E2; [|exact O1|lia].
  destruct (rd_exact data (h_len h - 12) r2) as [[c r3]|?|] eqn:E3; cbn [bind] in H; try discriminate. apply over_exact in E3; [|exact E2]. destruct (mtext _); cbn [bind] in H; try discriminate. injection H as <- <- <-. exact E3.
Qed.
Lemma over_next : forall m r o r', over data r -> next data m r = Ok (o, r') -> over data r' /\ match o with Some a => a_start a + a_len a <= lenN data + 8 | None => True end.
Proof.
  intros m r o r' O H. pose proof O as [p EP]. unfold next in H. assert (EB : r_bound r = Some (mkBd 0 (lenN data - p) (lenN data))) by now rewrite EP. rewrite EB in H. cbn [b_rem] in H. destruct (N.eqb_spec (lenN data - p) 0); [injection H as <- <-; auto|]. destruct (_ <? 8); [discriminate|].
  unfold read_info in H. destruct (read_head data (lenN data - p) m r) as [[[h|] r1]|?|] eqn:E; cbn [bind] in H; try discriminate; apply over_head in E; auto; destruct E as [O1 E].
  - destruct E as [ST LE]. rewrite EP in ST. cbn in ST. destruct (list_eqb (h_id h) ($"----")).
    + destruct (_ <? 8); [discriminate|]. destruct (_ <? 8); [discriminate|]. destruct (parse_freeform data (h_len h - 8) m r1) as [[i r2]|?|] eqn:E2; cbn [bind] in H; try discriminate. injection H as <- <-.
      split; [|cbn; lia]. unfold parse_freeform in E2. destruct (_ <? 24); [discriminate|].
      destruct (freeform_chunk data ($"mean") _ m r1) as [[[s1 n1] r3]|?|] eqn:E3; cbn [bind] in E2; try discriminate. apply over_chunk in E3; [|exact O1].
      destruct (freeform_chunk data ($"name") _ m r3) as [[[s2 n2] r4]|?|] eqn:E4; cbn [bind] in E2; try discriminate. apply over_chunk in E4; [|exact E3]. injection E2 as <- <-. exact E4.
    + injection H as <- <-. split; [exact O1|cbn; lia].
  - injection H as <- <-. auto.
Qed.
Lemma over_skip : forall ext len r r', over data r -> 8 <= len -> (ext = false -> len < 2 ^ 32) -> skip_atom ext len r = Ok r' -> over data r'.
Proof.
  intros ext len r r' O L8 LB H. unfold skip_atom in H. destruct ext; cbn [negb] in H.
  - destruct (U64_MAX <? _); [discriminate|]. injection H as <-. now apply over_start.
  - rewrite N.mod_small in H by now apply LB. eapply over_cur; eauto. lia.
Qed.
Lemma over_find : forall f m r i r', over data r -> moov_find f data m r = Ok (i, r') -> over data r' /\ a_start i + a_len i <= lenN data + 8.
Proof.
  induction f as [|f IH]; intros m r i r' O H; cbn [moov_find] in H; [discriminate|]. destruct (next data m r) as [[[a|] r1]|?|] eqn:E; try discriminate. pose proof E as EP. apply over_next in E; [|exact O]. destruct E as [O1 LE].
  apply (next_past data (lenN data)) in EP; [|exact DOK|lia|now apply over_lim]. destruct EP as (_ & _ & _ & G1 & G2).
  destruct (is_fourcc _ _); [injection H as <- <-; auto|]. destruct (skip_atom (a_ext a) (a_len a) r1) as [r2|?|] eqn:E2; cbn [bind] in H; try discriminate. apply over_skip in E2; auto. eauto.
Qed.
Lemma over_verify : forall m r s r', over data r -> verify_mp4 data m r = Ok (s, r') -> over data r'.
Proof.
  intros m r s r' O H. unfold verify_mp4 in H. destruct (next data m r) as [[[a|] r1]|?|] eqn:E; cbn [bind] in H; try discriminate. apply over_next in E; [|exact O]. destruct (negb _); [discriminate|]. destruct (_ <? 12); [discriminate|].
  destruct (rd_exact data 4 r1) as [[x r2]|?|] eqn:E2; cbn [bind] in H; try discriminate. apply over_exact in E2; [|apply E]. destruct (seek_cur _ r2) as [r3|?|] eqn:E3; cbn [bind] in H; try discriminate. apply over_cur in E3; [|exact E2|lia].
  destruct (utf8_decode x); try discriminate. injection H as <- <-. exact E3.
Qed.
Lemma moov_bounds : forall m f s r i r', verify_mp4 data m (atom_reader data) = Ok (s, r) -> moov_find f data m r = Ok (i, r') -> 8 <= a_len i -> lim (lenN data + 8) (reset_bounds (a_start i + 8) (a_len i - 8) r').
Proof.
  intros m f s r i r' HV HF L8. apply over_verify in HV; [|exists 0; unfold atom_reader; do 3 f_equal; lia]. apply over_find in HF; [|exact HV]. destruct HF as [_ LE]. unfold lim, reset_bounds. cbn. lia.
Qed.
Lemma find_len : forall f m r i r', over data r -> moov_find f data m r = Ok (i, r') -> 8 <= a_len i.
Proof.
  induction f as [|f IH]; intros m r i r' O H; cbn [moov_find] in H; [discriminate|]. destruct (next data m r) as [[[a|] r1]|?|] eqn:E; try discriminate. pose proof E as EP. apply over_next in E; [|exact O]. destruct E as [O1 LE].
  apply (next_past data (lenN data)) in EP; [|exact DOK|lia|now apply over_lim]. destruct EP as (_ & _ & _ & G1 & G2).
  destruct (is_fourcc _ _); [injection H as <- <-; auto|]. destruct (skip_atom (a_ext a) (a_len a) r1) as [r2|?|] eqn:E2; cbn [bind] in H; try discriminate. apply over_skip in E2; auto. eauto.
Qed.
End Over.
