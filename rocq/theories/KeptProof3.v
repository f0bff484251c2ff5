(** Lemmas about the type of a file behind its changes: the first bytes of MP4 files. *)
From Verif Require Import BaseLemmas StrLemmas FileModel ProbeThm Mp4Model Mp4WriteModel.

(** ** Readers without bounds only go forward *)
Lemma exact_free : forall data n r x r', rd_exact data n r = Ok (x, r') -> r_bound r = None -> r_pos r' = r_pos r + n /\ r_bound r' = None /\ x = takeN n (dropN (r_pos r) data) /\ (0 < n -> r_pos r + n <= lenN data).
Proof.
  intros data n [pos b] x r' H B. cbn in B. subst b. unfold rd_exact in H. destruct (N.eqb_spec n 0) as [->|]. { injection H as <- <-. cbn. split; [lia|]. split; auto. split; auto. lia. }
  cbn [r_bound] in H. unfold rd_inner in H. cbn [r_pos] in *. destruct (read_exact n (dropN pos data)) as [[y z]|] eqn:E; cbn [mord bind] in H; try discriminate. injection H as <- <-. cbn. split; auto. split; auto.
  apply read_exact_spec in E as [E1 E2]. split. { rewrite E1. symmetry. now apply takeN_app. } intros NZ. apply (f_equal lenN) in E1. rewrite lenN_dropN, lenN_app in E1. lia.
Qed.
Lemma be_free : forall data n r x r', rd_be data n r = Ok (x, r') -> r_bound r = None -> r_pos r' = r_pos r + n /\ r_bound r' = None /\ x = be_dec (takeN n (dropN (r_pos r) data)).
Proof.
  intros data n r x r' H B. unfold rd_be in H. destruct (rd_exact data n r) as [[y r1]| |] eqn:E; cbn [bind] in H; try discriminate. injection H as <- <-. destruct (exact_free _ _ _ _ _ E B) as (A & C & -> & _). auto.
Qed.
Lemma head_free : forall data size m r o r', read_head data size m r = Ok (o, r') -> r_bound r = None -> r_bound r' = None /\ r_pos r <= r_pos r' /\
  forall h, o = Some h -> r_pos r + 8 <= r_pos r' /\ h_start h = r_pos r /\ 8 <= h_len h /\ h_id h = takeN 4 (dropN (r_pos r + 4) data) /\
    (h_ext h = false -> h_len h = be_dec (takeN 4 (dropN (r_pos r) data)) \/ h_len h <= lenN data).
Proof.
  intros data size m r o r' H B. unfold read_head in H. destruct (rd_be data 4 r) as [[raw r1]| |] eqn:E1; cbn [bind] in H; try discriminate.
  destruct (be_free _ _ _ _ _ E1 B) as (P1 & B1 & V1). destruct (rd_exact data 4 r1) as [[id r2]| |] eqn:E2; cbn [bind] in H; try discriminate. destruct (exact_free _ _ _ _ _ E2 B1) as (P2 & B2 & V2 & IN). specialize (IN ltac:(lia)).
  assert (SE : forall x, r_bound x = None -> r_bound (seek_end data x) = None). { intros x X. unfold seek_end. now rewrite X. }
  assert (SP : forall x, r_bound x = None -> r_pos r <= r_pos (seek_end data x)). { intros x X. unfold seek_end. rewrite X. cbn [r_pos]. lia. }
  destruct (negb (forallb _ id)). { destruct (is_strict m); [discriminate|]. injection H as <- <-. split; [auto|]. split; [auto|]. discriminate. }
  match type of H with bind ?a _ = _ => destruct a as [[[len ext] r3]| |] eqn:L; cbn [bind] in H; try discriminate end.
  assert (K : r_bound r3 = None /\ r_pos r2 <= r_pos r3 /\ (ext = false -> len = raw \/ len <= lenN data)).
  { destruct (raw =? 0).
    - destruct (msub _ _) as [n| |] eqn:M; cbn [bind] in L; try discriminate. injection L as <- <- <-. unfold seek_start. rewrite SE by auto. cbn [r_pos r_bound]. split; auto. split; [lia|]. intros _. right.
      unfold msub in M. destruct (_ <? _); [discriminate|]. injection M as <-. unfold seek_end. rewrite B2. cbn [r_pos]. lia.
    - destruct (raw =? 1).
      + destruct (rd_be data 8 r2) as [[n r4]| |] eqn:E3; cbn [bind] in L; try discriminate. injection L as <- <- <-. destruct (be_free _ _ _ _ _ E3 B2) as (P3 & B3 & _). split; auto. split; [lia|discriminate].
      + injection L as <- <- <-. split; auto. split; [lia|auto]. }
  destruct K as (K1 & K2 & K3). destruct (N.ltb_spec len 8); [discriminate|].
  destruct (size <? len - 8). { destruct (_ || _); [|discriminate]. injection H as <- <-. split; auto. split; [auto|]. discriminate. }
  injection H as <- <-. split; auto. split; [lia|]. intros h X. injection X as <-. cbn [h_start h_len h_ext h_id]. split; [lia|]. split; auto. split; auto. split. { now rewrite <- P1. } intros X. destruct (K3 X) as [->|]; auto.
Qed.
Lemma seek_free : forall s r r', seek_cur s r = Ok r' -> r_bound r = None -> r_bound r' = None /\ Z.of_N (r_pos r') = (Z.of_N (r_pos r) + s)%Z.
Proof. intros s [pos b] r' H B. cbn in B. subst b. unfold seek_cur in H. cbn [r_pos r_bound] in *. destruct (Z.ltb_spec (Z.of_N pos + s) 0); [discriminate|]. injection H as <-. cbn. split; auto. lia. Qed.
Lemma chunk_free : forall data name size m r s n r', freeform_chunk data name size m r = Ok (s, n, r') -> r_bound r = None -> r_bound r' = None /\ r_pos r <= r_pos r'.
Proof.
  intros data name size m r s n r' H B. unfold freeform_chunk in H. destruct (read_head data size m r) as [[[h|] r1]| |] eqn:E; cbn [bind] in H; try discriminate. destruct (head_free _ _ _ _ _ _ E B) as (B1 & PM & K). destruct (K _ eq_refl) as (K1 & _).
  destruct (negb _); [discriminate|]. destruct (_ <? 12); [discriminate|]. destruct (size <? _); [discriminate|]. destruct (seek_cur 4 r1) as [r2| |] eqn:S; cbn [bind] in H; try discriminate. destruct (seek_free _ _ _ S B1) as (B2 & P2).
  destruct (rd_exact data _ r2) as [[c r3]| |] eqn:R; cbn [bind] in H; try discriminate. destruct (exact_free _ _ _ _ _ R B2) as (P3 & B3 & _ & _). destruct (mtext _) as [t| |]; cbn [bind] in H; try discriminate. injection H as _ _ <-. split; auto. lia.
Qed.
Lemma info_free : forall data size m r o r', read_info data size m r = Ok (o, r') -> r_bound r = None -> r_bound r' = None /\ r_pos r <= r_pos r' /\
  forall i, o = Some i -> r_pos r + 8 <= r_pos r' /\ a_start i = r_pos r /\ 8 <= a_len i /\ (takeN 4 (dropN (r_pos r + 4) data) <> $"----" -> a_ident i = Fourcc (takeN 4 (dropN (r_pos r + 4) data))) /\
    (a_ext i = false -> a_len i = be_dec (takeN 4 (dropN (r_pos r) data)) \/ a_len i <= lenN data).
Proof.
  intros data size m r o r' H B. unfold read_info in H. destruct (read_head data size m r) as [[[h|] r1]| |] eqn:E; cbn [bind] in H; try discriminate; destruct (head_free _ _ _ _ _ _ E B) as (B1 & PM & K).
  2:{ injection H as <- <-. split; auto. split; auto. discriminate. }
  destruct (K _ eq_refl) as (K1 & K2 & K3 & K4 & K5). destruct (list_eqb _ _) eqn:DD.
  - apply list_eqb_eq in DD. rewrite K4 in DD. destruct (size <? 8); [discriminate|]. destruct (size - 8 <? 8); [discriminate|]. destruct (parse_freeform _ _ _ _) as [[i r2]| |] eqn:P; cbn [bind] in H; try discriminate. injection H as <- <-.
    unfold parse_freeform in P. destruct (_ <? 24); [discriminate|]. destruct (freeform_chunk data ($"mean") _ m r1) as [[[a b] r3]| |] eqn:F1; cbn [bind] in P; try discriminate. destruct (chunk_free _ _ _ _ _ _ _ _ F1 B1) as (B3 & P3).
    destruct (freeform_chunk data ($"name") _ m r3) as [[[a' b'] r4]| |] eqn:F2; cbn [bind] in P; try discriminate. destruct (chunk_free _ _ _ _ _ _ _ _ F2 B3) as (B4 & P4). injection P as <- <-. split; auto. split; [lia|].
    intros i X. injection X as <-. cbn [a_start a_len a_ext a_ident]. split; [lia|]. split; auto. split; auto. split; [intros X; contradiction|auto].
  - injection H as <- <-. split; auto. split; auto. intros i X. injection X as <-. cbn [a_start a_len a_ext a_ident]. split; auto. split; auto. split; auto. split; [|auto]. intros _. now rewrite K4.
Qed.
Lemma skip_free : forall k ext len r r', skip_atom ext len r = Ok r' -> r_bound r = None -> k + 8 <= r_pos r -> r_bound r' = None /\ k <= r_pos r'.
Proof.
  intros k ext len r r' H B K. unfold skip_atom in H. destruct ext; cbn [negb] in H.
  - destruct (_ <? _); [discriminate|]. injection H as <-. unfold seek_start. rewrite B. cbn. split; auto. lia.
  - destruct (seek_free _ _ _ H B) as (B1 & P). split; auto. lia.
Qed.

(** ** The atoms: none starts before [k] *)
Fixpoint all_from (k : N) (c : catom) : Prop := match c with CAtom i kids => k <= a_start i /\ fold_right (fun c P => all_from k c /\ P) True kids end.
Lemma all_from_kids : forall k kids, fold_right (fun c P => all_from k c /\ P) True kids <-> Forall (all_from k) kids.
Proof. intros k kids. induction kids as [|c kids IH]; cbn [fold_right]. { split; auto. } rewrite IH. split. intros [A B]. auto. intros H. inversion H; auto. Qed.
Lemma ctx_free : forall fuel data m k,
  (forall len r o len' r', ctx_read fuel data m len r = Ok (o, len', r') -> r_bound r = None -> k <= r_pos r -> r_bound r' = None /\ k <= r_pos r' /\ forall c, o = Some c -> all_from k c) /\
  (forall len r l len' r', ctx_kids fuel data m len r = Ok (l, len', r') -> r_bound r = None -> k <= r_pos r -> r_bound r' = None /\ k <= r_pos r' /\ Forall (all_from k) l).
Proof.
  induction fuel as [|fuel IH]; intros data m k; [split; intros; discriminate|]. destruct (IH data m k) as [IH1 IH2]. split.
  - intros len r o len' r' H B K. cbn [ctx_read] in H. destruct (len =? 0). { injection H as <- <- <-. split; auto. split; auto. discriminate. }
    destruct (read_info data len m r) as [[o1 r1]| |] eqn:E; cbn [bind] in H; try discriminate. destruct (info_free _ _ _ _ _ _ E B) as (B1 & P1 & I). destruct o1 as [i|].
    2:{ injection H as <- <- <-. split; auto. split; [lia|]. discriminate. }
    destruct (I _ eq_refl) as (I1 & I2 & _). destruct (negb (important _)).
    + destruct (skip_atom _ _ r1) as [r2| |] eqn:S; cbn [bind] in H; try discriminate. destruct (skip_free k _ _ _ _ S B1 ltac:(lia)) as (B2 & P2). injection H as <- <- <-. split; auto. split; auto. intros c X. injection X as <-. cbn. split; auto. lia.
    + destruct (msub _ _) as [n| |]; cbn [bind] in H; try discriminate. destruct (ctx_kids fuel data m n r1) as [[[kids rest] r2]| |] eqn:C; cbn [bind] in H; try discriminate. destruct (IH2 _ _ _ _ _ C B1 ltac:(lia)) as (B2 & P2 & F2).
      destruct (negb (rest =? 0)); [discriminate|]. injection H as <- <- <-. split; auto. split; auto. intros c X. injection X as <-. cbn [all_from]. split; [lia|]. now apply all_from_kids.
  - intros len r l len' r' H B K. cbn [ctx_kids] in H. destruct (ctx_read fuel data m len r) as [[[o len1] r1]| |] eqn:E; cbn [bind] in H; try discriminate. destruct (IH1 _ _ _ _ _ E B K) as (B1 & P1 & I). destruct o as [c|].
    + destruct (ctx_kids fuel data m len1 r1) as [[[l1 len2] r2]| |] eqn:C; cbn [bind] in H; try discriminate. destruct (IH2 _ _ _ _ _ C B1 P1) as (B2 & P2 & F2). injection H as <- <- <-. split; auto.
    + injection H as <- <- <-. split; auto.
Qed.
Lemma kids_from : forall k want c, Forall (all_from k) (c_kids c) -> Forall (fun i => k <= a_start i) (all_children want c).
Proof.
  intros k want. fix SELF 1. intros [i kids] H. cbn [c_kids] in H. cbn [all_children c_kids]. induction kids as [|c kids IH]; cbn [flat_map]; [constructor|].
  inversion H as [|? ? A B]; subst. apply Forall_app. split; [|auto]. destruct (is_fourcc want _). { constructor; [|constructor]. destruct c as [j kk]. cbn in *. tauto. }
  destruct (a_ident (c_info c)); [|constructor]. apply SELF. destruct c as [j kk]. cbn [all_from c_kids] in *. now apply all_from_kids.
Qed.
Lemma child_free : forall fuel data len want m r o r', find_child fuel data len want m r = Ok (o, r') -> forall k, r_bound r = None -> k <= r_pos r -> r_bound r' = None /\ k <= r_pos r' /\ forall i, o = Some i -> k <= a_start i.
Proof.
  induction fuel as [|fuel IH]; intros data len want m r o r' H k B K; cbn [find_child] in H. { destruct (len <=? 8); [|discriminate]. injection H as <- <-. split; auto. split; auto. discriminate. }
  destruct (len <=? 8). { injection H as <- <-. split; auto. split; auto. discriminate. }
  destruct (read_info data len m r) as [[o1 r1]| |] eqn:E; cbn [bind] in H; try discriminate. destruct (info_free _ _ _ _ _ _ E B) as (B1 & P1 & I). destruct o1 as [i|].
  2:{ injection H as <- <-. split; auto. split; [lia|]. discriminate. }
  destruct (I _ eq_refl) as (I1 & I2 & _). destruct (is_fourcc _ _).
  - injection H as <- <-. split; auto. split; [lia|]. intros j X. injection X as <-. lia.
  - destruct (skip_atom _ _ r1) as [r2| |] eqn:S; cbn [bind] in H; try discriminate. destruct (skip_free k _ _ _ _ S B1 ltac:(lia)) as (B2 & P2). eapply IH; eauto.
Qed.
Lemma tree_free : forall fuel data len want m r acc found n l, tree_loop fuel data len want m r acc found = Ok (n, l) -> forall k, r_bound r = None -> k <= r_pos r -> Forall (fun i => k <= a_start i) acc -> Forall (fun i => k <= a_start i) l.
Proof.
  induction fuel as [|fuel IH]; intros data len want m r acc found n l H k B K F; cbn [tree_loop] in H. { destruct (len <=? 8); [|discriminate]. now injection H as _ <-. }
  destruct (len <=? 8). { now injection H as _ <-. }
  destruct (read_info data len m r) as [[o1 r1]| |] eqn:E; cbn [bind] in H; try discriminate. destruct (info_free _ _ _ _ _ _ E B) as (B1 & P1 & I). destruct o1 as [i|]. 2:{ now injection H as _ <-. }
  destruct (I _ eq_refl) as (I1 & I2 & _). destruct (skip_atom _ _ r1) as [r2| |] eqn:S; cbn [bind] in H; try discriminate. destruct (skip_free k _ _ _ _ S B1 ltac:(lia)) as (B2 & P2). cbv zeta in H.
  destruct (a_ident i); eapply IH; eauto. apply Forall_app. split; auto. constructor; [lia|constructor].
Qed.
Lemma full_free : forall data r b r', meta_is_full data r = Ok (b, r') -> r_bound r = None -> r_bound r' = None /\ r_pos r <= r_pos r'.
Proof.
  intros data r b r' H B. unfold meta_is_full in H. destruct (rd_be data 4 r) as [[v r1]| |] eqn:E1; cbn [bind] in H; try discriminate. destruct (be_free _ _ _ _ _ E1 B) as (P1 & B1 & _).
  destruct (rd_exact data 4 r1) as [[id r2]| |] eqn:E2; cbn [bind] in H; try discriminate. destruct (exact_free _ _ _ _ _ E2 B1) as (P2 & B2 & _ & _).
  destruct (existsb _ _); (destruct (seek_cur _ r2) as [r3| |] eqn:S; cbn [bind] in H; try discriminate; destruct (seek_free _ _ _ S B2) as (B3 & P3); injection H as _ <-; split; auto; lia).
Qed.

(** ** What is written at [k] and behind keeps the first [k] bytes *)
Definition front (k : N) (v w : bytes) : Prop := takeN k w = takeN k v /\ k <= lenN w.
Lemma front_trans : forall k a b c, front k a b -> front k b c -> front k a c.
Proof. intros k a b c [A1 A2] [B1 B2]. split; auto. congruence. Qed.
Lemma write_front : forall k pos x v, k <= pos -> k <= lenN v -> front k v (write_at pos x v).
Proof. intros k pos x v P L. unfold write_at. split; [|rewrite lenN_app, lenN_takeN; lia]. rewrite takeN_app_le by (rewrite lenN_takeN; lia). unfold takeN. rewrite firstn_firstn. f_equal. lia. Qed.
Lemma size_front : forall k pos n v w, write_size pos n v = Ok w -> k <= pos -> k <= lenN v -> front k v w.
Proof. intros k pos n v w H P L. unfold write_size in H. destruct (_ <? _); [discriminate|]. assert (E : w = write_at pos (be_enc 4 n) v) by now injection H as <-. rewrite E. now apply write_front. Qed.
Lemma splice_front : forall k a b new v w, splice a b new v = Ok w -> k <= a -> front k v w.
Proof.
  intros k a b new v w H K. unfold splice in H. destruct (N.ltb_spec b a); [discriminate|]. destruct (N.ltb_spec (lenN v) b); [discriminate|]. injection H as <-. split; [|rewrite lenN_app, lenN_takeN; lia].
  rewrite takeN_app_le by (rewrite lenN_takeN; lia). unfold takeN. rewrite firstn_firstn. f_equal. lia.
Qed.
Lemma entries_front : forall k w count pos d from v v', shift_entries w count pos d from v = Ok v' -> k <= pos -> k <= lenN v -> front k v v'.
Proof.
  intros k w count. induction count as [|count IH]; intros pos d from v v' H P L; cbn [shift_entries] in H. { injection H as <-. split; auto. }
  destruct (mord _) as [[x y]| |]; cbn [bind] in H; try discriminate. cbv zeta in H. set (u := if _ <? _ then _ else _) in H.
  assert (U : front k v u) by (unfold u; destruct (_ <? from); [split; auto|now apply write_front]). eapply front_trans; [exact U|]. eapply IH; [exact H|lia|apply U].
Qed.
Lemma table_front : forall k w pos d from v v', shift_table w pos d from v = Ok v' -> k <= pos -> k <= lenN v -> front k v v'.
Proof. intros k w pos d from v v' H P L. unfold shift_table in H. destruct (mord _) as [[c x]| |]; cbn [bind] in H; try discriminate. eapply entries_front; eauto. lia. Qed.
Lemma stco_front : forall k l d from v v', shift_stco l d from v = Ok v' -> Forall (fun i => k <= a_start i) l -> k <= lenN v -> front k v v'.
Proof.
  intros k l. induction l as [|i l IH]; intros d from v v' H F L; cbn [shift_stco] in H. { injection H as <-. split; auto. } inversion F; subst. destruct (a_ext i); [discriminate|].
  destruct (shift_table _ _ _ _ _) as [u| |] eqn:E; cbn [bind] in H; try discriminate. apply (table_front k) in E; [|lia|auto]. eapply front_trans; [exact E|]. eapply IH; eauto. apply E.
Qed.
Lemma co64_front : forall k l d from v v', shift_co64 l d from v = Ok v' -> Forall (fun i => k <= a_start i) l -> k <= lenN v -> front k v v'.
Proof.
  intros k l. induction l as [|i l IH]; intros d from v v' H F L; cbn [shift_co64] in H. { injection H as <-. split; auto. } inversion F; subst.
  destruct (shift_table _ _ _ _ _) as [u| |] eqn:E; cbn [bind] in H; try discriminate. apply (table_front k) in E; [|lia|auto]. eapply front_trans; [exact E|]. eapply IH; eauto. apply E.
Qed.
Lemma tfhd_front : forall k l d from v v', shift_tfhd l d from v = Ok v' -> Forall (fun i => k <= a_start i) l -> k <= lenN v -> front k v v'.
Proof.
  intros k l. induction l as [|i l IH]; intros d from v v' H F L; cbn [shift_tfhd] in H. { injection H as <-. split; auto. } inversion F; subst. destruct (a_ext i); [discriminate|].
  destruct (mord _) as [[fl x]| |]; cbn [bind] in H; try discriminate. destruct (if N.odd fl then _ else _) as [u| |] eqn:E; cbn [bind] in H; try discriminate.
  assert (U : front k v u). { destruct (N.odd fl). eapply entries_front; [exact E|lia|auto]. injection E as <-. split; auto. } eapply front_trans; [exact U|]. eapply IH; eauto. apply U.
Qed.
Lemma offsets_front : forall k top moov d from v v', update_offsets top moov d from v = Ok v' -> all_from k moov -> (forall c, find_top ($"moof") top = Some c -> all_from k c) -> k <= lenN v -> front k v v'.
Proof.
  intros k top moov d from v v' H M O L. assert (AK : forall c want, all_from k c -> Forall (fun i => k <= a_start i) (all_children want c)). { intros c want A. apply kids_from. destruct c. cbn [all_from c_kids] in *. now apply all_from_kids. }
  unfold update_offsets in H. destruct (shift_stco _ _ _ _) as [v1| |] eqn:E1; cbn [bind] in H; try discriminate. apply (stco_front k) in E1; auto. destruct (shift_co64 _ _ _ _) as [v2| |] eqn:E2; cbn [bind] in H; try discriminate.
  apply (co64_front k) in E2; auto; [|apply E1]. assert (E := front_trans _ _ _ _ E1 E2). destruct (find_top _ top) as [moof|].
  - eapply front_trans; [exact E|]. eapply tfhd_front; eauto. apply E.
  - injection H as <-. exact E.
Qed.
Lemma replace_front : forall k top moov meta udta padding v start stop new w u, replace_atoms top moov meta udta padding v start stop new = Ok (w, u) ->
  all_from k moov -> (forall c, find_top ($"moof") top = Some c -> all_from k c) -> k <= a_start meta -> k <= a_start udta -> k <= start -> k <= lenN v -> front k v w.
Proof.
  intros k top moov meta udta padding v start stop new w u H M O KM KU KS L. unfold replace_atoms in H. destruct (msub _ _) as [n| |]; cbn [bind] in H; try discriminate.
  match type of H with bind ?a _ = _ => destruct a as [[[new' d] pad]| |]; cbn [bind] in H; try discriminate end.
  match type of H with bind ?a _ = _ => destruct a as [[v1 u1]| |] eqn:E1; cbn [bind] in H; try discriminate end.
  assert (F1 : front k v v1).
  { destruct (_ =? a_len meta). { injection E1 as <- _. split; auto. } destruct (msub _ _) as [kk| |]; cbn [bind] in E1; try discriminate. destruct (write_size (a_start meta) _ _) as [v2| |] eqn:S1; cbn [bind] in E1; try discriminate.
    destruct (write_size (a_start udta) _ _) as [v3| |] eqn:S2; cbn [bind] in E1; try discriminate. injection E1 as <- _. apply (size_front k) in S1; auto. apply (size_front k) in S2; auto; [|apply S1]. eapply front_trans; eauto. }
  match type of H with bind ?a _ = _ => destruct a as [v2| |] eqn:E2; cbn [bind] in H; try discriminate end.
  assert (F2 : front k v1 v2). { destruct (d =? 0)%Z. injection E2 as <-. split; auto. apply F1. eapply offsets_front; eauto. apply F1. }
  destruct (splice start stop new' v2) as [v3| |] eqn:S; cbn [bind] in H; try discriminate. injection H as <- _. apply (splice_front k) in S; auto. eapply front_trans; [exact F1|]. eapply front_trans; eauto.
Qed.
Lemma free_run_all : forall (P : atom_info -> Prop) l, Forall P l -> Forall P (free_run l).
Proof. intros P l F. induction F; cbn [free_run]; [constructor|]. destruct (is_fourcc _ _); auto. Qed.
Lemma existing_front : forall k top moov meta udta ilst m padding v r w u, save_to_existing top moov meta udta ilst m padding v r = Ok (w, u) ->
  all_from k moov -> (forall c, find_top ($"moof") top = Some c -> all_from k c) -> k <= a_start meta -> k <= a_start udta -> r_bound r = None -> k <= r_pos r -> k <= lenN v -> front k v w.
Proof.
  intros k top moov meta udta ilst m padding v r w u H M O KM KU B KR L. unfold save_to_existing in H. destruct (msub (a_len meta) 8) as [n| |]; cbn [bind] in H; try discriminate.
  destruct (atom_tree v n ($"ilst") m r) as [[idx tree]| |] eqn:T; cbn [bind] in H; try discriminate.
  assert (TF : Forall (fun i => k <= a_start i) tree). { unfold atom_tree in T. destruct (tree_loop _ _ _ _ _ _ _ _) as [[f l]| |] eqn:TL; cbn [bind] in T; try discriminate. injection T as _ <-. eapply tree_free; eauto. }
  set (rm := match ilst with [] => true | _ => false end) in H. clearbody rm.
  assert (NIL : tree = [] -> front k v w).
  { intros ->. destruct rm. { injection H as <- _. split; auto. } eapply replace_front; eauto. lia. }
  destruct tree as [|t0 tree]; [auto|]. set (tr := t0 :: tree) in *. clear NIL. clearbody tr. destruct (nth_error tr (N.to_nat idx)) as [old|] eqn:NE; [|destruct tr; discriminate].
  assert (KO : k <= a_start old). { rewrite Forall_forall in TF. apply TF. eapply nth_error_In; eauto. }
  assert (H' : (let stop := a_start old + a_len old in
          if rm then replace_atoms top moov meta udta padding v (a_start old) stop [] else
          let before := free_run (rev (takeN idx tr)) in
          let start := match rev before with i :: _ => a_start i | [] => a_start old end in
          let available := a_len old + total_len before + total_len (free_run (dropN (idx + 1) tr)) in
          if lenN ilst + 8 <? available then
            let rest := available - lenN ilst in
            if U32_MAX <? rest then Err MTooMuch else
            let? f := free_atom rest in Ok (write_at start (ilst ++ f) v, a_len udta)
          else replace_atoms top moov meta udta padding v start stop ilst) = Ok (w, u)) by (destruct tr; [destruct (N.to_nat idx); discriminate|exact H]).
  clear H. cbv zeta in H'. destruct rm. { eapply replace_front; eauto. }
  set (start := match rev _ with [] => _ | _ => _ end) in H'. assert (KS : k <= start).
  { unfold start. assert (FB : Forall (fun i => k <= a_start i) (rev (free_run (rev (takeN idx tr))))). { apply Forall_rev, free_run_all, Forall_rev. now apply Forall_takeN. } destruct (rev (free_run _)); auto. now inversion FB. }
  clearbody start. destruct (_ <? _). 2:{ eapply replace_front; eauto. }
  destruct (U32_MAX <? _); [discriminate|]. destruct (free_atom _) as [f| |]; cbn [bind] in H'; try discriminate. injection H' as <- _. now apply write_front.
Qed.
Lemma rewritten8 : forall data x, apply_log data [OpTrunc 0; OpWrite 0 x] = x.
Proof.
  intros data x. cbn [apply_log fold_left apply_op]. unfold set_len. rewrite takeN_0. replace (0 - lenN data) with 0 by lia. change (repeat 0 (N.to_nat 0)) with (@nil N). cbn [app].
  unfold write_at. rewrite takeN_0. change (lenN (@nil N)) with 0. change (repeat 0 (N.to_nat (0 - 0))) with (@nil N). cbn [app]. rewrite dropN_all. apply app_nil_r. change (lenN (@nil N)) with 0. lia.
Qed.
Lemma mp4_front : forall size r tag m padding log, let data := be_enc 4 size ++ $"ftyp" ++ r in size < 2 ^ 30 -> lenN data < 2 ^ 32 -> mp4_write data tag m padding = Ok log -> front 8 data (apply_log data log).
Proof.
  intros size r tag m padding log data SZ LD H. assert (L8 : 8 <= lenN data) by (unfold data; rewrite !lenN_app, be_enc_len; change (lenN ($"ftyp")) with 4; lia).
  assert (T4 : takeN 4 (dropN (0 + 4) data) = $"ftyp"). { unfold data. change (0 + 4) with 4. rewrite dropN_app by apply be_enc_len. now apply takeN_app. }
  assert (T0 : be_dec (takeN 4 (dropN 0 data)) = size). { unfold data. rewrite dropN_0, takeN_app by apply be_enc_len. apply be_dec_enc. change (256 ^ N.of_nat 4) with (2 ^ 32). lia. }
  clearbody data. unfold mp4_write in H. destruct (verify_mp4 _ _ _) as [vx| |]; cbn [bind] in H; try discriminate. destruct (read_atoms data m) as [top| |] eqn:T; cbn [bind] in H; try discriminate.
  destruct (find_top ($"moov") top) as [moov|] eqn:FM; [|discriminate].
  assert (TOP : all_from 8 moov /\ forall c, find_top ($"moof") top = Some c -> all_from 8 c).
  { unfold read_atoms in T. replace (2 * length data + 4)%nat with (S (S (2 * length data + 2))) in T by lia. remember (S (2 * length data + 2)) as fu eqn:FUE. cbn [ctx_kids] in T.
    destruct (ctx_read fu data m (lenN data) (Mp4Model.cursor 0)) as [[[o len1] r1]| |] eqn:E; cbn [bind] in T; try discriminate.
    destruct o as [c0|]; [|injection T as <-; discriminate]. destruct (ctx_kids fu data m len1 r1) as [[[l len2] r2]| |] eqn:C; cbn [bind] in T; try discriminate. injection T as <-.
    rewrite FUE in E. cbn [ctx_read] in E. destruct (lenN data =? 0); [discriminate|]. destruct (read_info data (lenN data) m (Mp4Model.cursor 0)) as [[o1 r3]| |] eqn:RI; cbn [bind] in E; try discriminate.
    destruct (info_free _ _ _ _ _ _ RI eq_refl) as (B3 & P3 & I). destruct o1 as [i|]; [|discriminate]. destruct (I _ eq_refl) as (I1 & I2 & I3 & I4 & I5). cbn [Mp4Model.cursor r_pos] in *. rewrite T4 in I4. specialize (I4 ltac:(discriminate)).
    rewrite I4 in E. change (negb (important (Fourcc ($"ftyp")))) with true in E. cbv beta iota in E. destruct (skip_atom _ _ r3) as [r4| |] eqn:S; cbn [bind] in E; try discriminate. injection E as <- <- <-.
    assert (K : r_bound r4 = None /\ 8 <= r_pos r4).
    { unfold skip_atom in S. destruct (a_ext i); cbn [negb] in S.
      - destruct (_ <? _); [discriminate|]. injection S as <-. unfold seek_start. rewrite B3. cbn. split; auto. lia.
      - destruct (seek_free _ _ _ S B3) as (B4 & P4). split; auto. rewrite N.mod_small in P4. lia. destruct (I5 eq_refl) as [X|X]; rewrite ?T0 in X; lia. }
    destruct K as [K1 K2]. destruct (ctx_free fu data m 8) as [_ CK]. destruct (CK _ _ _ _ _ C K1 K2) as (_ & _ & F).
    unfold find_top in *. cbn [find c_info] in *. rewrite I4 in *. change (is_fourcc ($"moov") (Fourcc ($"ftyp"))) with false in FM. change (is_fourcc ($"moof") (Fourcc ($"ftyp"))) with false. cbv iota in *.
    rewrite Forall_forall in F. split. apply F. eapply find_some; eauto. intros c X. apply F. eapply find_some; eauto. }
  destruct TOP as [TM TO]. set (mi := c_info moov) in *. assert (KM : 8 <= a_start mi) by (destruct moov; cbn in *; tauto).
  destruct (build_ilst tag) as [ilst| |]; cbn [bind] in H; try discriminate. set (rm := match ilst with [] => true | _ => false end) in H. clearbody rm.
  destruct (find_child _ data (a_len mi) ($"udta") m _) as [[udta r1]| |] eqn:FU; cbn [bind] in H; try discriminate.
  destruct (child_free _ _ _ _ _ _ _ _ FU 8 eq_refl) as (B1 & P1 & U1). { cbn. lia. }
  assert (FIN : forall v old new log, front 8 data v -> (let? n := msub (a_len mi) old in let? v := write_size (a_start mi) (n + new) v in Ok [OpTrunc 0; OpWrite 0 v]) = Ok log -> front 8 data (apply_log data log)).
  { clear H log. intros v old new log F H. destruct (msub _ _) as [n| |]; cbn [bind] in H; try discriminate. destruct (write_size _ _ _) as [w| |] eqn:W; cbn [bind] in H; try discriminate. injection H as <-. rewrite rewritten8.
    eapply front_trans; [exact F|]. eapply size_front; [exact W|auto|apply F]. }
  assert (SAME : front 8 data data) by (split; auto).
  destruct udta as [udta|].
  2:{ destruct rm. { injection H as <-. exact SAME. } destruct (create_udta ilst) as [x| |]; cbn [bind] in H; try discriminate. destruct (splice _ _ x data) as [v| |] eqn:S; cbn [bind] in H; try discriminate.
      eapply FIN; [|exact H]. eapply splice_front; [exact S|lia]. }
  specialize (U1 _ eq_refl). destruct (find_child _ data (a_len udta) ($"meta") m r1) as [[meta r2]| |] eqn:FE; cbn [bind] in H; try discriminate. destruct (child_free _ _ _ _ _ _ _ _ FE 8 B1 P1) as (B2 & P2 & M2).
  destruct meta as [meta|].
  2:{ destruct rm. { injection H as <-. exact SAME. } destruct (create_meta ilst) as [x| |]; cbn [bind] in H; try discriminate. destruct (write_size (a_start udta) _ data) as [v1| |] eqn:W1; cbn [bind] in H; try discriminate.
      destruct (splice _ _ x v1) as [v| |] eqn:S; cbn [bind] in H; try discriminate. eapply FIN; [|exact H]. apply (size_front 8) in W1; auto. eapply front_trans; [exact W1|]. eapply splice_front; [exact S|lia]. }
  specialize (M2 _ eq_refl). destruct (meta_is_full data r2) as [[b r3]| |] eqn:MF; cbn [bind] in H; try discriminate. destruct (full_free _ _ _ _ MF B2) as (B3 & P3).
  destruct (save_to_existing _ _ _ _ _ _ _ _ _) as [[v u]| |] eqn:SE; cbn [bind] in H; try discriminate. eapply FIN; [|exact H]. eapply existing_front; eauto. lia.
Qed.
