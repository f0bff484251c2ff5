(** C232: the limit for allocations in Vorbis comments and APE tags. *)
From Verif Require Import Base BaseLemmas Str StrLemmas TextModel TextSpec TextProof PictureModel ApeModel FrameModel VorbisModel AllocModel.

Lemma lift_ok : forall E A (r : res E A) x, lift r = Ok x <-> r = Ok x.
Proof. destruct r; cbn; split; intros H; congruence. Qed.
Lemma alloc_ok : forall E limit n u, @allocate E limit n = Ok u <-> n <= limit.
Proof. intros. unfold allocate. destruct (limit <? n) eqn:E0; [apply N.ltb_lt in E0|apply N.ltb_ge in E0; destruct u]; split; intros H; try congruence; lia. Qed.
Lemma alloc_yes : forall E limit n, n <= limit -> @allocate E limit n = Ok tt.
Proof. intros. now apply alloc_ok. Qed.
Ltac step H := match type of H with
  | bind ?r _ = Ok _ => let E := fresh "E" in destruct r as [?x| |] eqn:E; [|discriminate|discriminate]; cbn [bind] in H
  | (let (_, _) := ?p in _) = Ok _ => destruct p
  | (if ?b then _ else _) = Ok _ => let E := fresh "E" in destruct b eqn:E; try discriminate
  end.

(** ** Sizes of what is read *)
Lemma b64_len : forall k l d, (length l <= k)%nat -> b64_decode l = Some d -> lenN d <= lenN l.
Proof.
  induction k as [|k IH]; intros l d L H; destruct l as [|c0 [|c1 [|c2 [|c3 l]]]]; cbn [length] in L; try lia; try discriminate H; try (injection H as <-; lia).
  cbn [b64_decode] in H. cbv zeta in H. destruct (b64_decode l) as [r|] eqn:E; [|discriminate]. apply IH in E; [|lia]. rewrite !lenN_cons.
  destruct (b64_val c0), (b64_val c1); try discriminate. destruct (c3 =? 61).
  - destruct (c2 =? 61); [destruct (_ =? 0); [|discriminate]|destruct (b64_val c2); [|discriminate]; destruct (_ =? 0); [|discriminate]]; injection H as <-; rewrite !lenN_cons; lia.
  - destruct (b64_val c2), (b64_val c3); try discriminate. injection H as <-. rewrite !lenN_cons. lia.
Qed.
Lemma or_eof_ok : forall A (o : option A) x, or_eof o = Ok x -> o = Some x.
Proof. destruct o; cbn; congruence. Qed.
Lemma read_be_len : forall n r v r', read_be n r = Some (v, r') -> lenN r' <= lenN r.
Proof.
  unfold read_be. intros. destruct (read_exact n r) as [[b q]|] eqn:E; [|discriminate]. injection H as _ <-. apply read_exact_spec in E as (-> & _). rewrite lenN_app. lia.
Qed.
Lemma desc_len : forall r d r', flac_desc r = Ok (d, r') -> lenN r' <= lenN r.
Proof.
  unfold flac_desc. intros. repeat step H; repeat match goal with E : or_eof _ = Ok _ |- _ => apply or_eof_ok in E; apply read_be_len in E end.
  all: try (injection H as _ <-); rewrite ?lenN_dropN; try lia.
  all: destruct (utf8_decode _) in H; try discriminate; injection H as _ <-; rewrite ?lenN_dropN; lia.
Qed.
Lemma flac_len : forall b e m p i, from_flac_bytes b e m = Ok (p, i) -> lenN (p_data p) <= lenN b.
Proof.
  assert (I : forall b m p i, from_flac_inner b m = Ok (p, i) -> lenN (p_data p) <= lenN b).
  { intros b m p i H. unfold from_flac_inner in H. repeat step H. destruct (utf8_decode _) as [mime| |]; try discriminate.
    repeat step H. injection H as <- _. cbn [p_data]. rewrite lenN_takeN.
    repeat match goal with E : or_eof _ = Ok _ |- _ => apply or_eof_ok in E; apply read_be_len in E end.
    repeat match goal with E : flac_desc _ = Ok _ |- _ => apply desc_len in E; rewrite ?lenN_dropN in E end. lia. }
  intros b e m p i H. unfold from_flac_bytes in H. destruct e; [|eauto]. destruct (b64_decode b) as [d|] eqn:E; [|discriminate].
  apply I in H. apply (b64_len (length b)) in E; auto. lia.
Qed.
Lemma split_len : forall c s a b, split_once c s = Some (a, b) -> lenN s = lenN a + 1 + lenN b.
Proof.
  induction s as [|x s IH]; intros a b H; [discriminate|]. cbn in H. destruct (x =? c); [injection H as <- <-; rewrite lenN_cons; change (lenN (@nil N)) with 0; lia|].
  destruct (split_once c s) as [[a' b']|]; [|discriminate]. injection H as <- <-. rewrite !lenN_cons, (IH a' b') by reflexivity. lia.
Qed.

(** ** Comments *)
(** The picture of a comment that fits is no larger than the comment. *)
Lemma comment_same : forall limit o t c, lenN c <= limit -> read_comment_lim limit o t c = lift (read_comment o t c).
Proof.
  intros. unfold read_comment_lim. destruct (split_once 61 c) as [[k v]|] eqn:ES; [|reflexivity]. destruct (_ && _); [|reflexivity].
  destruct (from_flac_bytes v true (vo_mode o)) as [[p i]| |] eqn:E; try reflexivity. apply flac_len in E. apply split_len in ES.
  replace (limit <? lenN (p_data p)) with false by (symmetry; apply N.ltb_ge; lia). reflexivity.
Qed.
Lemma vrd_ok : forall A (o : option A) x, vrd o = Ok x -> o = Some x.
Proof. destruct o; cbn; congruence. Qed.

Lemma list_same : forall limit n o len r t t', read_comment_list_lim limit n o len r t = Ok t' -> read_comment_list n o len r t = Ok t'.
Proof.
  induction n as [|n IH]; intros o len r t t' H; [injection H as <-; reflexivity|]. cbn [read_comment_list_lim] in H. cbn [read_comment_list].
  destruct (vrd (read_le 4 r)) as [[clen r1]| |]; try discriminate. cbn [lift bind] in *. destruct (len <? clen); [discriminate|].
  destruct (allocate limit clen) as [u| |] eqn:EA; try discriminate. apply alloc_ok in EA. cbn [bind] in H.
  destruct (vrd (read_exact clen r1)) as [[c r2]| |] eqn:EC; try discriminate. cbn [lift bind] in *. apply vrd_ok, read_exact_spec in EC as (_ & LC).
  rewrite comment_same in H by lia. destruct (read_comment o t c); try discriminate. cbn [lift bind] in *. now apply IH.
Qed.
(** C232. With a limit the result is that without, or none: nothing is read differently. *)
Theorem C232_comments_same : forall limit o len r t, read_comments_lim limit o len r = Ok t -> read_comments o len r = Ok t.
Proof.
  intros limit o len r t H. unfold read_comments_lim in H. unfold read_comments.
  destruct (vrd (read_le 4 r)) as [[vlen r1]| |]; try discriminate. cbn [lift bind] in *. destruct (len <? vlen); [discriminate|].
  destruct (allocate limit vlen); try discriminate. cbn [bind] in H. destruct (vrd (read_exact vlen r1)) as [[vb r2]| |]; try discriminate. cbn [lift bind] in *.
  destruct (read_vendor (vo_mode o) vb); try discriminate. cbn [lift bind] in *. destruct (vrd (read_le 4 r2)) as [[n r3]| |]; try discriminate. cbn [lift bind] in *.
  destruct (_ <? n); [discriminate|]. eapply list_same. exact H.
Qed.
Lemma list_enough : forall limit n o len r t, len <= limit -> read_comment_list_lim limit n o len r t = lift (read_comment_list n o len r t).
Proof.
  induction n as [|n IH]; intros o len r t L; [reflexivity|]. cbn [read_comment_list_lim read_comment_list].
  destruct (vrd (read_le 4 r)) as [[clen r1]| |]; try reflexivity. cbn [lift bind]. destruct (len <? clen) eqn:EL; [reflexivity|]. apply N.ltb_ge in EL.
  rewrite alloc_yes by lia. cbn [bind]. destruct (vrd (read_exact clen r1)) as [[c r2]| |] eqn:EC; try reflexivity. cbn [lift bind].
  apply vrd_ok, read_exact_spec in EC as (_ & LC). rewrite comment_same by lia. destruct (read_comment o t c); try reflexivity. cbn [lift bind]. apply IH. lia.
Qed.
(** Comments no longer than the limit are read as without one, errors included. *)
Theorem C232_comments_enough : forall limit o len r, len <= limit -> read_comments_lim limit o len r = lift (read_comments o len r).
Proof.
  intros limit o len r L. unfold read_comments_lim, read_comments.
  destruct (vrd (read_le 4 r)) as [[vlen r1]| |]; try reflexivity. cbn [lift bind]. destruct (len <? vlen) eqn:EL; [reflexivity|]. apply N.ltb_ge in EL.
  rewrite alloc_yes by lia. cbn [bind]. destruct (vrd (read_exact vlen r1)) as [[vb r2]| |]; try reflexivity. cbn [lift bind].
  destruct (read_vendor (vo_mode o) vb); try reflexivity. cbn [lift bind]. destruct (vrd (read_le 4 r2)) as [[n r3]| |]; try reflexivity. cbn [lift bind].
  destruct (_ <? n); [reflexivity|]. apply list_enough. lia.
Qed.

(** The layout: vendor and comments with their lengths *)
Definition field (c : bytes) : bytes := le_enc 4 (lenN c) ++ c.
Definition packed (vendor : bytes) (cs : list bytes) : bytes := field vendor ++ le_enc 4 (lenN cs) ++ flat_map field cs.
Definition short (c : bytes) : Prop := lenN c < 2 ^ 32.

Lemma field_read : forall c r, short c -> read_le 4 (field c ++ r) = Some (lenN c, c ++ r).
Proof. intros. unfold field. rewrite <- app_assoc. apply (read_le_app 4); [reflexivity|exact H]. Qed.
Lemma list_exact : forall limit o cs len t q, Forall short cs ->
  (exists t', read_comment_list_lim limit (length cs) o len (flat_map field cs ++ q) t = Ok t') <->
  Forall (fun c => lenN c <= limit) cs /\ exists t', read_comment_list (length cs) o len (flat_map field cs ++ q) t = Ok t'.
Proof.
  induction cs as [|c cs IH]; intros len t q S0; [split; [intros _; split; [constructor|exists t; reflexivity]|intros _; exists t; reflexivity]|].
  apply Forall_cons_iff in S0 as (SC & S0). cbn [length flat_map read_comment_list_lim read_comment_list]. rewrite <- app_assoc, field_read by auto. cbn [vrd lift bind].
  destruct (len <? lenN c); [split; [intros (? & H)|intros (_ & ? & H)]; discriminate|].
  rewrite read_exact_app by reflexivity. cbn [vrd lift bind]. unfold allocate. destruct (limit <? lenN c) eqn:EL.
  - apply N.ltb_lt in EL. split; [intros (? & H); discriminate|intros (H & _)]. apply Forall_cons_iff in H as (H & _). lia.
  - apply N.ltb_ge in EL. cbn [bind]. rewrite comment_same by auto. destruct (read_comment o t c) as [t1| |]; cbn [lift bind]; try (split; [intros (? & H)|intros (_ & ? & H)]; discriminate).
    rewrite IH by auto. rewrite Forall_cons_iff. tauto.
Qed.
(** Comments are read with a limit exactly if they are read without and neither the vendor nor a comment is longer. *)
Theorem C232_comments_exact : forall limit o len vendor cs q, short vendor -> Forall short cs -> lenN cs < 2 ^ 32 ->
  (exists t, read_comments_lim limit o len (packed vendor cs ++ q) = Ok t) <->
  lenN vendor <= limit /\ Forall (fun c => lenN c <= limit) cs /\ exists t, read_comments o len (packed vendor cs ++ q) = Ok t.
Proof.
  intros limit o len vendor cs q SV SC NC. unfold read_comments_lim, read_comments, packed. rewrite <- !app_assoc, field_read by auto. cbn [vrd lift bind].
  destruct (len <? lenN vendor); [split; [intros (? & H)|intros (_ & _ & ? & H)]; discriminate|].
  rewrite read_exact_app by reflexivity. cbn [vrd lift bind]. unfold allocate. destruct (limit <? lenN vendor) eqn:EL.
  - apply N.ltb_lt in EL. split; [intros (? & H); discriminate|intros (H & _)]. lia.
  - apply N.ltb_ge in EL. cbn [bind]. destruct (read_vendor (vo_mode o) vendor) as [ve| |]; cbn [lift bind]; try (split; [intros (? & H)|intros (_ & _ & ? & H)]; discriminate).
    rewrite (read_le_app 4) by (auto; reflexivity). cbn [vrd lift bind]. destruct (_ <? lenN cs); [split; [intros (? & H)|intros (_ & _ & ? & H)]; discriminate|].
    replace (N.to_nat (lenN cs)) with (length cs) by (unfold lenN; now rewrite Nnat.Nat2N.id). rewrite list_exact by auto. tauto.
Qed.
(** A higher limit reads what a lower one does. *)
Lemma list_monotone : forall limit limit' n o len r t t', limit <= limit' -> read_comment_list_lim limit n o len r t = Ok t' -> read_comment_list_lim limit' n o len r t = Ok t'.
Proof.
  induction n as [|n IH]; intros o len r t t' L H; [exact H|]. cbn [read_comment_list_lim] in *.
  destruct (vrd (read_le 4 r)) as [[clen r1]| |]; try discriminate. cbn [lift bind] in *. destruct (len <? clen); [discriminate|].
  destruct (allocate limit clen) as [u| |] eqn:EA; try discriminate. apply alloc_ok in EA. rewrite alloc_yes by lia. cbn [bind] in *.
  destruct (vrd (read_exact clen r1)) as [[c r2]| |] eqn:EC; try discriminate. cbn [lift bind] in *. apply vrd_ok, read_exact_spec in EC as (_ & LC).
  rewrite comment_same in * by lia. destruct (read_comment o t c); try discriminate. cbn [lift bind] in *. now apply IH.
Qed.
Theorem C232_comments_monotone : forall limit limit' o len r t, limit <= limit' -> read_comments_lim limit o len r = Ok t -> read_comments_lim limit' o len r = Ok t.
Proof.
  intros limit limit' o len r t L H. unfold read_comments_lim in *.
  destruct (vrd (read_le 4 r)) as [[vlen r1]| |]; try discriminate. cbn [lift bind] in *. destruct (len <? vlen); [discriminate|].
  destruct (allocate limit vlen) as [u| |] eqn:EA; try discriminate. apply alloc_ok in EA. rewrite alloc_yes by lia. cbn [bind] in *.
  destruct (vrd (read_exact vlen r1)) as [[vb r2]| |]; try discriminate. cbn [lift bind] in *.
  destruct (read_vendor (vo_mode o) vb); try discriminate. cbn [lift bind] in *. destruct (vrd (read_le 4 r2)) as [[n r3]| |]; try discriminate. cbn [lift bind] in *.
  destruct (_ <? n); [discriminate|]. eapply list_monotone; eauto.
Qed.

(** ** What is read is no larger than the limit *)
Lemma trim_len : forall s, lenN (utf8_enc (trim_end_nulls s)) <= lenN (utf8_enc s).
Proof.
  intros s. destruct (trim_spec s) as ((n & E) & _). rewrite E at 2. rewrite utf8_enc_app, lenN_app. lia.
Qed.
Lemma decoded_len : forall b s, bytes_ok b -> utf8_decode b = Ok s -> lenN (utf8_enc s) <= lenN b.
Proof.
  unfold utf8_decode. intros b s B H. destruct (utf8_dec b) as [s'|] eqn:E; [|discriminate]. injection H as <-. apply utf8_dec_spec in E as (_ & <-); auto. apply trim_len.
Qed.
Definition within (limit : N) (t : vc) : Prop :=
  Forall (fun e => lenN (fst e) + 1 + lenN (utf8_enc (snd e)) <= limit) (vc_items t) /\ Forall (fun p => lenN (p_data (fst p)) <= limit) (vc_pics t).
Lemma comment_within : forall limit o t c t', vo_implicit o = false -> bytes_ok c -> lenN c <= limit -> within limit t -> read_comment o t c = Ok t' -> within limit t'.
Proof.
  intros limit o t c t' I B L W H. unfold read_comment in H. destruct (split_once 61 c) as [[k v]|] eqn:ES; [|injection H as <-; exact W].
  pose proof (split_len _ _ _ _ ES) as SL. assert (BV : bytes_ok v).
  { clear - B ES. revert k v ES B. induction c as [|x c IH]; intros k v ES B; [discriminate|]. cbn in ES. apply Forall_cons_iff in B as (_ & B).
    destruct (x =? 61); [injection ES as _ <-; exact B|]. destruct (split_once 61 c) as [[a b]|]; [|discriminate]. injection ES as _ <-. eapply IH; eauto. }
  destruct W as (WI & WP). unfold strictly in H.
  assert (PIC : forall p, lenN (p_data (fst p)) <= limit -> within limit (with_vpics t (vc_pics t ++ [p]))).
  { intros p Hp. split; [exact WI|]. cbn [vc_pics with_vpics]. apply Forall_app. auto. }
  assert (ITEM : forall key s, lenN key + 1 + lenN (utf8_enc s) <= limit -> within limit (with_vitems t (vc_items t ++ [(key, s)]))).
  { intros key s Hp. split; [|exact WP]. cbn [vc_items with_vitems]. apply Forall_app. auto. }
  assert (KEEP : within limit t) by (split; auto).
  assert (KL : forall x, eq_ignore_case k x = true -> lenN x = lenN k).
  { intros x Hx. apply eq_ignore_case_iff in Hx. unfold lower in Hx. apply (f_equal (@length N)) in Hx. rewrite !map_length in Hx. unfold lenN. now rewrite Hx. }
  destruct (eq_ignore_case k MBP).
  { destruct (negb (vo_cover o)); [injection H as <-; auto|]. destruct (from_flac_bytes v true (vo_mode o)) as [[p i]| |] eqn:E; [|destruct (is_strict _); [discriminate|injection H as <-; auto]|discriminate].
    injection H as <-. apply PIC. apply flac_len in E. cbn [fst]. lia. }
  destruct (eq_ignore_case k COVERART).
  { destruct (negb (vo_cover o)); [injection H as <-; auto|]. destruct (b64_decode v) as [d|] eqn:E; [|destruct (is_strict _); [discriminate|injection H as <-; auto]].
    apply (b64_len (length v)) in E; auto. destruct (mimetype_from_bin d); try discriminate; injection H as <-; apply PIC; cbn [fst p_data]; lia. }
  destruct (eq_ignore_case k VTRACK || eq_ignore_case k VDISC) eqn:EK.
  { unfold vdec in H. destruct (utf8_decode v) as [s| |] eqn:E; [|destruct (is_strict _); [discriminate|injection H as <-; auto]|destruct (is_strict _); [discriminate|injection H as <-; auto]].
    rewrite I in H. cbn [negb] in H. injection H as <-. apply decoded_len in E; auto. apply ITEM.
    destruct (eq_ignore_case k VTRACK) eqn:E1; [rewrite (KL VTRACK) by auto; lia|]. cbn [orb] in EK. rewrite (KL VDISC) by auto. lia. }
  destruct (valid_key k); [|destruct (is_strict _); [discriminate|injection H as <-; auto]].
  unfold vdec in H. destruct (utf8_decode v) as [s| |] eqn:E; [|destruct (is_strict _); [discriminate|injection H as <-; auto]|destruct (is_strict _); [discriminate|injection H as <-; auto]].
  injection H as <-. apply decoded_len in E; auto. apply ITEM. lia.
Qed.
Lemma list_within : forall limit o n len r t t', vo_implicit o = false -> bytes_ok r -> within limit t -> read_comment_list_lim limit n o len r t = Ok t' -> within limit t'.
Proof.
  intros limit o n. induction n as [|n IH]; intros len r t t' I B W H; [injection H as <-; exact W|]. cbn [read_comment_list_lim] in H.
  destruct (vrd (read_le 4 r)) as [[clen r1]| |] eqn:E1; try discriminate. cbn [lift bind] in H. destruct (len <? clen); [discriminate|].
  destruct (allocate limit clen) as [u| |] eqn:EA; try discriminate. apply alloc_ok in EA. cbn [bind] in H.
  destruct (vrd (read_exact clen r1)) as [[c r2]| |] eqn:EC; try discriminate. cbn [lift bind] in H. apply vrd_ok, read_exact_spec in EC as (EC & LC).
  apply vrd_ok in E1. unfold read_le in E1. destruct (read_exact 4 r) as [[b4 r']|] eqn:E4; [|discriminate]. injection E1 as _ ->. apply read_exact_spec in E4 as (-> & _).
  apply bytes_ok_app in B as (_ & B). rewrite EC in B. apply bytes_ok_app in B as (BC & B).
  rewrite comment_same in H by lia. destruct (read_comment o t c) as [t1| |] eqn:ER; try discriminate. cbn [lift bind] in H.
  eapply IH; [exact I|exact B| |exact H]. apply (comment_within limit o t c t1 I BC); [lia|exact W|exact ER].
Qed.
(** No comment and no picture is larger than the limit (unless numbers are split: then new items are made). *)
Theorem C232_comments_within : forall limit o len r t, vo_implicit o = false -> bytes_ok r -> read_comments_lim limit o len r = Ok t ->
  Forall (fun e => lenN (fst e) + 1 + lenN (utf8_enc (snd e)) <= limit) (vc_items t) /\ Forall (fun p => lenN (p_data (fst p)) <= limit) (vc_pics t).
Proof.
  intros limit o len r t I B H. unfold read_comments_lim in H.
  destruct (vrd (read_le 4 r)) as [[vlen r1]| |] eqn:E1; try discriminate. cbn [lift bind] in H. destruct (len <? vlen); [discriminate|].
  destruct (allocate limit vlen); try discriminate. cbn [bind] in H. destruct (vrd (read_exact vlen r1)) as [[vb r2]| |] eqn:E2; try discriminate. cbn [lift bind] in H.
  destruct (read_vendor (vo_mode o) vb) as [ve| |]; try discriminate. cbn [lift bind] in H. destruct (vrd (read_le 4 r2)) as [[n r3]| |] eqn:E3; try discriminate. cbn [lift bind] in H.
  destruct (_ <? n); [discriminate|]. apply (list_within limit o _ _ _ _ _ I) in H; [exact H| |split; constructor].
  apply vrd_ok in E1, E2, E3. unfold read_le in E1, E3. destruct (read_exact 4 r) as [[b4 r']|] eqn:E4; [|discriminate]. injection E1 as _ ->. apply read_exact_spec in E4 as (-> & _).
  destruct (read_exact 4 r2) as [[b5 r5]|] eqn:E5; [|discriminate]. injection E3 as _ ->. apply read_exact_spec in E5 as (-> & _). apply read_exact_spec in E2 as (-> & _).
  rewrite !bytes_ok_app in B. tauto.
Qed.
(** The list of comments is not limited: with a limit of one byte, memory for as many comments as the packet could hold is asked for before the first is read. *)
Theorem C232_list_refuted : forall n, 0 < n < 2 ^ 30 -> exists r, lenN r = 4 * n + 8 /\ forall o,
  list_request o (lenN r) r = Some (48 * n) /\ exists t, read_comments_lim 0 o (lenN r) r = Ok t.
Proof.
  intros n Hn. exists (packed [] (repeat [] (N.to_nat n))).
  assert (F : flat_map field (repeat [] (N.to_nat n)) = repeat 0 (N.to_nat (4 * n))).
  { replace (N.to_nat (4 * n)) with (4 * N.to_nat n)%nat by lia. induction (N.to_nat n) as [|k IH]; [reflexivity|]. replace (4 * S k)%nat with (4 + 4 * k)%nat by lia. cbn [repeat flat_map]. rewrite IH. reflexivity. }
  assert (L : lenN (packed [] (repeat [] (N.to_nat n))) = 4 * n + 8).
  { unfold packed. rewrite !lenN_app, F, le_enc_len, lenN_repeat, Nnat.N2Nat.id. change (lenN (field [])) with 4. change (N.of_nat 4) with 4. lia. }
  assert (LC : lenN (repeat (@nil N) (N.to_nat n)) = n) by (rewrite lenN_repeat; lia).
  split; [exact L|]. intros o. rewrite L. split.
  - unfold list_request, packed. rewrite field_read by reflexivity. replace (4 * n + 8 <? lenN []) with false by (symmetry; apply N.ltb_ge; apply N.le_0_l).
    rewrite read_exact_app by reflexivity. rewrite LC, (read_le_app 4) by (try reflexivity; change (256 ^ 4) with (2 ^ 32); lia).
    change (lenN (@nil N)) with 0. rewrite N.sub_0_r. replace (4 * n + 8) with ((n + 2) * 4) by lia. rewrite N.div_mul by lia. rewrite N.mod_small by lia.
    now replace (n + 2 <? n) with false by (symmetry; apply N.ltb_ge; lia).
  - rewrite <- (app_nil_r (packed _ _)). apply C232_comments_exact; [reflexivity|apply Forall_forall; intros x Hx; apply repeat_spec in Hx; subst; reflexivity|rewrite LC; lia|].
    split; [apply N.le_refl|]. split; [apply Forall_forall; intros x Hx; apply repeat_spec in Hx; subst; apply N.le_refl|].
    exists (mkVc [] [] []). unfold read_comments, packed. rewrite <- !app_assoc, field_read by reflexivity. cbn [vrd bind].
    replace (4 * n + 8 <? lenN []) with false by (symmetry; apply N.ltb_ge; apply N.le_0_l). rewrite read_exact_app by reflexivity. cbn [vrd bind].
    replace (read_vendor (vo_mode o) []) with (@Ok vc_error str []) by reflexivity. cbn [bind].
    rewrite LC, (read_le_app 4) by (try reflexivity; change (256 ^ 4) with (2 ^ 32); lia). cbn [vrd bind].
    change (lenN (@nil N)) with 0. rewrite N.sub_0_r. replace (4 * n + 8) with ((n + 2) * 4) by lia. rewrite N.div_mul by lia. rewrite N.mod_small by lia.
    replace (n + 2 <? n) with false by (symmetry; apply N.ltb_ge; lia). generalize ((n + 2) * 4). generalize (mkVc [] [] []). clear.
    induction (N.to_nat n) as [|k IH]; intros t len; [reflexivity|]. cbn [repeat flat_map read_comment_list]. rewrite <- app_assoc, field_read by reflexivity. cbn [vrd bind].
    change (lenN (@nil N)) with 0. replace (len <? 0) with false by (symmetry; apply N.ltb_ge; lia). rewrite read_exact_app by reflexivity. cbn [vrd bind].
    unfold read_comment. cbn [split_once bind]. apply IH.
Qed.

(** ** APE items *)
Lemma item_same : forall limit key flags size r x, parse_item_lim limit key flags size r = Ok x -> parse_item key flags size r = Ok x /\ size <= limit.
Proof.
  unfold parse_item_lim. intros. destruct (allocate limit size) as [u| |] eqn:E; try discriminate. apply alloc_ok in E. cbn [bind] in H. apply (proj1 (lift_ok _ _ _ _)) in H. auto.
Qed.
Lemma items_same : forall limit fuel count remaining cover t r x, read_items_lim limit fuel count remaining cover t r = Ok x -> read_items fuel count remaining cover t r = Ok x.
Proof.
  induction fuel as [|fuel IH]; intros count remaining cover t r x H; [discriminate|]. cbn [read_items_lim] in H. cbn [read_items].
  destruct (count =? 0); [injection H as <-; reflexivity|]. destruct (remaining <? 11); [injection H as <-; reflexivity|].
  destruct (rd_le4 r) as [[size r1]| |]; try discriminate. cbn [lift bind] in *. destruct (remaining <? size); [discriminate|].
  destruct (rd_le4 r1) as [[flags r2]| |]; try discriminate. cbn [lift bind] in *. destruct (rd_key r2) as [[kb r3]| |]; try discriminate. cbn [lift bind] in *.
  destruct (dec_text kb) as [key| |]; try discriminate. cbn [lift bind] in *. destruct (_ && _); [now apply IH|].
  destruct (parse_item_lim limit key flags size r3) as [[i r4]| |] eqn:EP; try discriminate. apply item_same in EP as (-> & _). cbn [bind] in *. now apply IH.
Qed.
Theorem C232_ape_same : forall limit size count cover r x, read_with_header_lim limit size count cover r = Ok x -> read_with_header size count cover r = Ok x.
Proof.
  unfold read_with_header_lim, read_with_header. intros. destruct (read_items_lim _ _ _ _ _ _ _) as [[t r']| |] eqn:E; try discriminate.
  apply items_same in E. rewrite E. cbn [bind] in *. congruence.
Qed.
Lemma items_enough : forall limit fuel count remaining cover t r, remaining <= limit ->
  read_items_lim limit fuel count remaining cover t r = lift (read_items fuel count remaining cover t r).
Proof.
  induction fuel as [|fuel IH]; intros count remaining cover t r L; [reflexivity|]. cbn [read_items_lim read_items].
  destruct (count =? 0); [reflexivity|]. destruct (remaining <? 11); [reflexivity|].
  destruct (rd_le4 r) as [[size r1]| |]; try reflexivity. cbn [lift bind]. destruct (remaining <? size) eqn:ES; [reflexivity|]. apply N.ltb_ge in ES.
  destruct (rd_le4 r1) as [[flags r2]| |]; try reflexivity. cbn [lift bind]. destruct (rd_key r2) as [[kb r3]| |]; try reflexivity. cbn [lift bind].
  destruct (dec_text kb) as [key| |]; try reflexivity. cbn [lift bind]. destruct (_ && _); [apply IH; lia|].
  unfold parse_item_lim. rewrite alloc_yes by lia. cbn [bind]. destruct (parse_item key flags size r3) as [[i r4]| |]; try reflexivity. cbn [lift bind]. apply IH. lia.
Qed.
(** A tag no longer than the limit is read as without one. *)
Theorem C232_ape_enough : forall limit size count cover r, size <= limit -> read_with_header_lim limit size count cover r = lift (read_with_header size count cover r).
Proof.
  intros. unfold read_with_header_lim, read_with_header. rewrite items_enough by auto. now destruct (read_items _ _ _ _ _ _) as [[t r']| |].
Qed.
Lemma items_monotone : forall limit limit' fuel count remaining cover t r x, limit <= limit' ->
  read_items_lim limit fuel count remaining cover t r = Ok x -> read_items_lim limit' fuel count remaining cover t r = Ok x.
Proof.
  induction fuel as [|fuel IH]; intros count remaining cover t r x L H; [discriminate|]. cbn [read_items_lim] in *.
  destruct (count =? 0); [exact H|]. destruct (remaining <? 11); [exact H|].
  destruct (rd_le4 r) as [[size r1]| |]; try discriminate. cbn [lift bind] in *. destruct (remaining <? size); [discriminate|].
  destruct (rd_le4 r1) as [[flags r2]| |]; try discriminate. cbn [lift bind] in *. destruct (rd_key r2) as [[kb r3]| |]; try discriminate. cbn [lift bind] in *.
  destruct (dec_text kb) as [key| |]; try discriminate. cbn [lift bind] in *. destruct (_ && _); [now apply IH|].
  destruct (parse_item_lim limit key flags size r3) as [[i r4]| |] eqn:EP; try discriminate. apply item_same in EP as (EP & S1).
  unfold parse_item_lim. rewrite alloc_yes by lia. cbn [bind]. rewrite EP. cbn [lift bind] in *. now apply IH.
Qed.
Theorem C232_ape_monotone : forall limit limit' size count cover r x, limit <= limit' ->
  read_with_header_lim limit size count cover r = Ok x -> read_with_header_lim limit' size count cover r = Ok x.
Proof.
  unfold read_with_header_lim. intros. destruct (read_items_lim limit _ _ _ _ _ _) as [[t r']| |] eqn:E; try discriminate. now rewrite (items_monotone _ _ _ _ _ _ _ _ _ H E).
Qed.
(** No value is larger than the limit. *)
Definition item_within (limit : N) (i : ape_item) : Prop := lenN (value_bytes (ai_value i)) <= limit.
Lemma item_value_within : forall limit key flags size r i r', bytes_ok (snd r) -> size <= limit -> parse_item key flags size r = Ok (i, r') -> item_within limit i /\ bytes_ok (snd r').
Proof.
  intros limit key flags size r i r' B L H. unfold parse_item in H. destruct (rd_exact size r) as [[v r1]| |] eqn:E; try discriminate. cbn [bind] in H.
  unfold rd_exact in E. destruct (read_exact size (snd r)) as [[b rest]|] eqn:ER; cbn in E; [|discriminate]. injection E as <- <-.
  apply read_exact_spec in ER as (ER & LB). rewrite ER in B. apply bytes_ok_app in B as (BB & BR).
  assert (D : forall s, dec_text b = Ok s -> lenN (utf8_enc s) <= limit).
  { intros s Hs. unfold dec_text in Hs. destruct (utf8_decode b) as [s'| |] eqn:EU; try discriminate. injection Hs as <-. apply decoded_len in EU; auto. lia. }
  match type of H with bind ?x _ = _ => destruct x as [pv| |] eqn:EV; try discriminate end. cbn [bind] in H.
  destruct (ape_item_new key pv) as [j| |] eqn:EN; try discriminate. cbn [bind] in H.
  assert (J : ai_value j = pv). { unfold ape_item_new in EN. destruct (existsb _ _); [discriminate|]. destruct (negb _); [discriminate|]. destruct (existsb _ key); [discriminate|]. injection EN as <-. reflexivity. }
  assert (W : lenN (value_bytes pv) <= limit).
  { destruct (_ =? 0) in EV; [destruct (dec_text b) eqn:ED; try discriminate; cbn [bind] in EV; injection EV as <-; cbn [value_bytes]; auto|].
    destruct (_ =? 1) in EV; [injection EV as <-; cbn [value_bytes]; lia|]. destruct (_ =? 2) in EV; [|discriminate].
    destruct (dec_text b) eqn:ED; try discriminate; cbn [bind] in EV; injection EV as <-; cbn [value_bytes]; auto. }
  injection H as <- <-. split; [|exact BR]. unfold item_within. destruct (N.land flags 1 =? 1); cbn [ai_value]; rewrite J; exact W.
Qed.
Lemma items_within : forall limit fuel count remaining cover t r t' r', bytes_ok (snd r) -> Forall (item_within limit) (at_items t) ->
  read_items_lim limit fuel count remaining cover t r = Ok (t', r') -> Forall (item_within limit) (at_items t').
Proof.
  induction fuel as [|fuel IH]; intros count remaining cover t r t' r' B W H; [discriminate|]. cbn [read_items_lim] in H.
  destruct (count =? 0); [injection H as <- _; exact W|]. destruct (remaining <? 11); [injection H as <- _; exact W|].
  assert (LE4 : forall r n r1, bytes_ok (snd r) -> rd_le4 r = Ok (n, r1) -> bytes_ok (snd r1)).
  { intros r0 n r1 B0 E. unfold rd_le4, read_le in E. destruct (read_exact 4 (snd r0)) as [[b4 q]|] eqn:E4; cbn in E; [|discriminate]. injection E as _ <-.
    apply read_exact_spec in E4 as (E4 & _). rewrite E4 in B0. now apply bytes_ok_app in B0. }
  destruct (rd_le4 r) as [[size r1]| |] eqn:E1; try discriminate. cbn [lift bind] in H. apply LE4 in E1; auto. destruct (remaining <? size); [discriminate|].
  destruct (rd_le4 r1) as [[flags r2]| |] eqn:E2; try discriminate. cbn [lift bind] in H. apply LE4 in E2; auto.
  destruct (rd_key r2) as [[kb r3]| |] eqn:E3; try discriminate. cbn [lift bind] in H.
  assert (B3 : bytes_ok (snd r3)).
  { unfold rd_key in E3. destruct (key_bytes (snd r2)) as [[k q]|] eqn:EK; cbn in E3; [|discriminate]. injection E3 as _ <-. cbn [snd]. clear - E2 EK.
    revert k q E2 EK. induction (snd r2) as [|c l IHl]; intros k q B EK; [discriminate|]. cbn in EK. apply Forall_cons_iff in B as (_ & B). destruct (c =? 0); [injection EK as _ <-; exact B|].
    destruct (key_bytes l) as [[k' q']|]; [|discriminate]. injection EK as _ <-. eapply IHl; eauto. }
  destruct (dec_text kb) as [key| |]; try discriminate. cbn [lift bind] in H. destruct (_ && _).
  - eapply IH; [|exact W|exact H]. cbn [rd_skip snd]. now apply Forall_dropN.
  - destruct (parse_item_lim limit key flags size r3) as [[i r4]| |] eqn:EP; try discriminate. apply item_same in EP as (EP & S1). cbn [bind] in H.
    apply (item_value_within limit) in EP as (WI & B4); auto. eapply IH; [exact B4| |exact H].
    unfold ape_insert, ape_remove. cbn [at_items]. apply Forall_app. split; [|auto]. apply Forall_forall. intros x Hx. apply filter_In in Hx as (Hx & _). rewrite Forall_forall in W. auto.
Qed.
Theorem C232_ape_within : forall limit size count cover r t r', bytes_ok (snd r) -> read_with_header_lim limit size count cover r = Ok (t, r') ->
  Forall (fun i => lenN (value_bytes (ai_value i)) <= limit) (at_items t).
Proof.
  unfold read_with_header_lim. intros. destruct (read_items_lim _ _ _ _ _ _ _) as [[t1 r1]| |] eqn:E; try discriminate. cbn [bind] in H0. injection H0 as <- _.
  eapply (items_within limit _ _ _ _ ape_default); [exact H|constructor|exact E].
Qed.

Example C232_example : let cs := [$"TITLE=ab"; $"ARTIST=c"] in let r := packed ($"lofty") cs in let o := mkVo true false Strict in
  read_comments_lim 8 o (lenN r) r = Ok (mkVc ($"lofty") [($"TITLE", $"ab"); ($"ARTIST", $"c")] []) /\
  read_comments_lim 7 o (lenN r) r = Err Limit /\ read_comments_lim 4 o (lenN r) r = Err Limit /\
  read_with_header_lim 3 100 1 true (0, le_enc 4 3 ++ le_enc 4 0 ++ $"Title" ++ [0] ++ $"abc") = Ok (mkApeTag false [mkApe false ($"Title") (VText ($"abc"))], (49, [])) /\
  read_with_header_lim 2 100 1 true (0, le_enc 4 3 ++ le_enc 4 0 ++ $"Title" ++ [0] ++ $"abc") = Err Limit.
Proof. vm_compute. repeat split. Qed.
