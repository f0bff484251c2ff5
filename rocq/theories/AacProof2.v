(** Streams of ADTS frames. *)
From Verif Require Import BaseLemmas StrLemmas Id3v2HeaderProof ApeProof2 TextProof MpegProof5 FrameTotalThm Id3v1Thm.
From Verif Require Import Id3v1Model ApeModel FrameReadModel Id3v2HeaderModel.
From Verif Require Export AacProof.

Lemma syncs_at : forall r p, syncs r p <-> sync_at r p.
Proof. intros r p. split. - intros (b & t & D & B). exists 255, b, t. auto. - intros (a & b & t & D & -> & B). exists b, t. auto. Qed.
Lemma search_some : forall r i, bytes_ok r -> syncs r i -> (forall j, j < i -> ~ syncs r j) -> search_for_frame_sync r = Some i.
Proof.
  intros r i OK S F. pose proof (search_spec r OK) as H. destruct (search_for_frame_sync r) as [k|].
  - destruct H as [H1 H2]. f_equal. destruct (N.lt_trichotomy k i) as [L|[L|L]]; auto. + exfalso. apply (F k L). now apply syncs_at. + exfalso. apply (H2 i L). now apply syncs_at.
  - exfalso. apply (H i). now apply syncs_at.
Qed.
Lemma search_none : forall r, bytes_ok r -> silent r -> search_for_frame_sync r = None.
Proof.
  intros r OK S. pose proof (search_spec r OK) as H. destruct (search_for_frame_sync r) as [k|]; auto. exfalso. destruct H as [H _]. apply (S k). now apply syncs_at.
Qed.
Lemma aframe_len : forall x, lenN (aframe x) = alength x.
Proof. intros. unfold aframe, alength. rewrite lenN_app, be_enc_len. reflexivity. Qed.
Lemma aframe_bytes_ok : forall x, aframe_ok x -> bytes_ok (aframe x).
Proof. intros x (_ & _ & _ & B). unfold aframe. apply Forall_app. split; auto. apply be_enc_ok. Qed.
Lemma aframe_head : forall x, aframe_ok x -> exists b t, aframe x = 255 :: b :: t /\ 240 <= b < 256.
Proof.
  intros x (V & L & _). unfold aframe. rewrite enc7. cbn [map app]. set (w := aword (fst x) (alength x)).
  assert (W : 0xFFF * 2 ^ 44 <= w < 2 ^ 56). { unfold w. split; [|now apply aword_lt]. rewrite aword_low. pose proof (kind_lt (fst x) V). lia. }
  eexists _, _. split. f_equal. { change 255 with (N.ones 8). rewrite N.land_ones, N.shiftr_div_pow2. change (N.ones 8) with 255. lia. }
  change 255 with (N.ones 8). rewrite N.land_ones, N.shiftr_div_pow2. change (2 ^ 40) with 1099511627776. change (2 ^ 8) with 256. lia.
Qed.
Lemma four_word : forall w, w < 2 ^ 56 -> be_dec (takeN 4 (be_enc 7 w)) = N.shiftr w 24.
Proof.
  intros w W. rewrite enc7. cbn [map]. change (takeN 4 ?l) with (firstn 4 l). cbn [firstn].
  change (be_dec [?a; ?b; ?c; ?d]) with (d + 256 * (c + 256 * (b + 256 * (a + 256 * 0)))). change 255 with (N.ones 8). rewrite !N.land_ones, !N.shiftr_div_pow2.
  change (2 ^ 8) with 256. change (2 ^ 48) with 281474976710656. change (2 ^ 40) with 1099511627776. change (2 ^ 32) with 4294967296. change (2 ^ 24) with 16777216. change (2 ^ 56) with 72057594037927936 in W. lia.
Qed.
Lemma masked : forall v, N.land v AAC_MASK = N.shiftl (N.land (N.shiftr v 5) (N.ones 27)) 5.
Proof. intros. change AAC_MASK with (N.shiftl (N.ones 27) 5). apply land_shift. Qed.
Lemma masked_kind : forall f len, avalid f -> len < 2 ^ 13 -> N.land (N.shiftr (aword f len) 24) AAC_MASK = N.shiftl (kind_word f) 5.
Proof.
  intros f len V L. rewrite masked. f_equal. rewrite N.shiftr_shiftr. change (24 + 5) with (29 + 0). rewrite high by auto. rewrite N.shiftr_0_r, N.land_ones. apply N.mod_small, kind_lt, V.
Qed.
Lemma size_le : forall x, aframe_ok x -> adts_size (header_of_frame (fst x) (alength x)) <= alength x.
Proof. intros x (_ & _ & C & _). unfold adts_size, header_of_frame, alength. cbn [a_crc]. destruct (x_crc (fst x)); [specialize (C eq_refl); lia|lia]. Qed.
Lemma frame_four : forall y rest, aframe_ok y -> exists r, read_be 4 (aframe y ++ rest) = Some (N.shiftr (aword (fst y) (alength y)) 24, r).
Proof.
  intros y rest (V & L & _). unfold read_be, read_exact. replace (4 <=? lenN (aframe y ++ rest)) with true by (symmetry; apply N.leb_le; rewrite lenN_app, aframe_len; unfold alength; lia).
  eexists. f_equal. f_equal. rewrite <- four_word by (now apply aword_lt). reflexivity.
Qed.

(** ** The next frame *)
Definition before_frame (junk : bytes) : Prop := silent (junk ++ [255]).
Lemma search_junk : forall junk x rest, bytes_ok junk -> before_frame junk -> aframe_ok x -> bytes_ok rest -> search_for_frame_sync (junk ++ aframe x ++ rest) = Some (lenN junk).
Proof.
  intros junk x rest OJ SJ OX OR. destruct (aframe_head x OX) as (b & t & E & B). apply search_some.
  - apply Forall_app. split; auto. apply Forall_app. split; auto. now apply aframe_bytes_ok.
  - exists b, (t ++ rest). rewrite dropN_app by reflexivity. rewrite E. cbn [app]. split; [reflexivity|lia].
  - intros j J (c & u & D & C). apply (SJ j). rewrite E in D. cbn [app] in D.
    assert (X : dropN j (junk ++ [255]) = takeN (lenN junk + 1 - j) (dropN j (junk ++ 255 :: b :: t ++ rest))).
    { replace (junk ++ 255 :: b :: t ++ rest) with ((junk ++ [255]) ++ b :: t ++ rest) by now rewrite <- app_assoc.
      rewrite (dropN_app_le _ j (junk ++ [255])) by (rewrite lenN_app; change (lenN [255]) with 1; lia). symmetry. apply takeN_app. rewrite lenN_dropN, lenN_app. change (lenN [255]) with 1. lia. }
    unfold syncs. rewrite X, D. exists c. unfold takeN. replace (N.to_nat (lenN junk + 1 - j)) with (S (S (N.to_nat (lenN junk - 1 - j)))) by lia. cbn [firstn]. eexists. split; [reflexivity|exact C].
Qed.
Lemma find_one : forall fuel pre junk x y rest, bytes_ok junk -> before_frame junk -> aframe_ok x -> aframe_ok y -> akind (fst y) (fst x) -> bytes_ok rest ->
  find_adts (S fuel) (pre ++ junk ++ aframe x ++ aframe y ++ rest) (lenN pre) = Ok (Some (header_of_frame (fst x) (alength x), lenN (pre ++ junk ++ aframe x))).
Proof.
  intros fuel pre junk x y rest OJ SJ OX OY K OR. set (data := pre ++ _). cbn [find_adts].
  assert (D0 : dropN (lenN pre) data = junk ++ aframe x ++ aframe y ++ rest) by (unfold data; now apply dropN_app). rewrite D0.
  rewrite search_junk; auto. 2:{ apply Forall_app. split; auto. now apply aframe_bytes_ok. }
  assert (D1 : dropN (lenN pre + lenN junk) data = aframe x ++ aframe y ++ rest) by (rewrite <- dropN_dropN, D0; now apply dropN_app). rewrite D1.
  assert (OX' := OX). destruct OX' as (V & L & _). unfold aframe at 1. rewrite <- app_assoc, decoded by auto. cbn [bind]. unfold cmp_header. pose proof (size_le x OX) as SL.
  set (h := header_of_frame (fst x) (alength x)) in *. change (a_len h) with (alength x). change (a_bytes h) with (be_enc 7 (aword (fst x) (alength x))).
  replace (lenN pre + lenN junk + adts_size h + (alength x - adts_size h)) with (lenN pre + lenN junk + alength x) by lia.
  assert (D2 : dropN (lenN pre + lenN junk + alength x) data = aframe y ++ rest). { rewrite <- dropN_dropN, D1. apply dropN_app. apply aframe_len. }
  rewrite D2. destruct (frame_four y rest OY) as [r ->]. rewrite four_word by (now apply aword_lt). destruct OY as (VY & LY & _). rewrite !masked_kind by auto. rewrite K, N.eqb_refl.
  do 3 f_equal. rewrite !lenN_app, aframe_len. lia.
Qed.
Lemma silent_nil : before_frame [].
Proof. intros p (b & t & D & _). destruct (N.eq_dec p 0) as [->|P]; [discriminate D|]. rewrite dropN_all in D by (cbn [app]; change (lenN [255]) with 1; lia). discriminate D. Qed.
Lemma find_last : forall fuel pre z post, aframe_ok z -> bytes_ok post -> silent post -> find_adts (S (S fuel)) (pre ++ aframe z ++ post) (lenN pre) = Ok None.
Proof.
  intros fuel pre z post OZ OP SP. set (data := pre ++ _). remember (S fuel) as fu. cbn [find_adts].
  assert (D0 : dropN (lenN pre) data = aframe z ++ post) by (unfold data; now apply dropN_app). rewrite D0.
  rewrite (search_junk [] z post (Forall_nil _) silent_nil OZ OP : search_for_frame_sync (aframe z ++ post) = _).
  rewrite lenN_nil, N.add_0_r, D0. assert (OZ' := OZ). destruct OZ' as (V & L & _). unfold aframe at 1. rewrite <- app_assoc, decoded by auto. cbn [bind]. unfold cmp_header. pose proof (size_le z OZ) as SL.
  set (h := header_of_frame (fst z) (alength z)) in *. change (a_len h) with (alength z). change (a_bytes h) with (be_enc 7 (aword (fst z) (alength z))).
  replace (lenN pre + adts_size h + (alength z - adts_size h)) with (lenN pre + alength z) by lia.
  assert (D2 : dropN (lenN pre + alength z) data = post). { rewrite <- dropN_dropN, D0. apply dropN_app. apply aframe_len. }
  rewrite D2. destruct (read_be 4 post) as [[v r]|] eqn:RB; [|reflexivity].
  rewrite four_word by (now apply aword_lt). rewrite masked_kind by auto. destruct (N.eqb_spec (N.shiftl (kind_word (fst z)) 5) (N.land v AAC_MASK)) as [E|E].
  - exfalso. unfold read_be, read_exact in RB. destruct (N.leb_spec 4 (lenN post)); [|discriminate]. injection RB as RB _.
    destruct post as [|a [|b [|c [|d post]]]]; rewrite ?lenN_cons, ?lenN_nil in *; try lia. change (takeN 4 (a :: b :: c :: d :: post)) with [a; b; c; d] in RB.
    change (be_dec [a; b; c; d]) with (d + 256 * (c + 256 * (b + 256 * (a + 256 * 0)))) in RB. rewrite !Forall_cons_iff in OP. destruct OP as (A & B & C & DD & _). unfold byte_ok in *.
    assert (VB : v < 2 ^ 32) by (change (2 ^ 32) with 4294967296; lia). rewrite masked in E. apply (f_equal (fun n => N.shiftr n 5)) in E. rewrite !N.shiftr_shiftl_l, N.sub_diag, !N.shiftl_0_r in E by lia.
    rewrite N.land_ones, N.shiftr_div_pow2 in E. pose proof (kind_lt (fst z) V) as (_ & KL). change (2 ^ 27) with 134217728 in E. change (2 ^ 5) with 32 in E. change (0xFFF * 2 ^ 15) with 134184960 in KL. change (2 ^ 32) with 4294967296 in VB.
    rewrite N.mod_small in E by (apply N.div_lt_upper_bound; lia). assert (VV : 4293918720 <= v) by lia. apply (SP 0). exists b, (c :: d :: post). split; [|lia]. change (dropN 0 ?l) with l. f_equal. lia.
  - subst fu. cbn [find_adts]. rewrite D2, search_none by auto. reflexivity.
Qed.
Lemma fuel_len : forall x rest, exists k, length (aframe x ++ rest) = S k.
Proof. intros. exists (length (aframe x ++ rest) - 1)%nat. assert (7 <= lenN (aframe x ++ rest)) by (rewrite lenN_app, aframe_len; unfold alength; lia). unfold lenN in *. lia. Qed.
Definition sumN (l : list N) : N := fold_right N.add 0 l.
Lemma stream_bytes_ok : forall l f, Forall (fun z => aframe_ok z /\ akind (fst z) f) l -> bytes_ok (astream l).
Proof. induction l as [|x l IH]; intros f F; [constructor|]. apply Forall_cons_iff in F as [[F1 _] F]. apply Forall_app. split; eauto. now apply aframe_bytes_ok. Qed.
(** The frames after the first, each but the last one. *)
Lemma count_all : forall l f z pre post rounds sum count, Forall (fun z => aframe_ok z /\ akind (fst z) f) (l ++ [z]) -> bytes_ok post -> silent post ->
  sum + sumN (map code_rate l) < 2 ^ 32 -> count + lenN l < 2 ^ 32 -> (length l < rounds)%nat ->
  count_frames rounds (pre ++ astream (l ++ [z]) ++ post) (lenN pre) sum count = Ok (sum + sumN (map code_rate l), count + lenN l).
Proof.
  induction l as [|x l IH]; intros f z pre post rounds sum count F OP SP SU C R; (destruct rounds as [|rounds]; [cbn [length] in R; lia|]); cbn [count_frames]; unfold find_next.
  - cbn [app] in *. unfold astream. cbn [flat_map]. rewrite app_nil_r. apply Forall_cons_iff in F as [[OZ _] _]. rewrite app_length. destruct (fuel_len z post) as [k ->].
    replace (S (length pre + S k))%nat with (S (S (length pre + k)))%nat by lia. rewrite find_last by auto. cbn [bind map sumN fold_right]. rewrite lenN_nil, !N.add_0_r. reflexivity.
  - cbn [app] in F. apply Forall_cons_iff in F as [[OX KX] F].
    assert (Y : exists y r, l ++ [z] = y :: r) by (destruct l; cbn [app]; eauto). destruct Y as (y & r & Y).
    assert (OY : aframe_ok y /\ akind (fst y) f /\ Forall (fun z => aframe_ok z /\ akind (fst z) f) r) by (rewrite Y in F; apply Forall_cons_iff in F; tauto). destruct OY as (OY & KY & FR).
    assert (E : pre ++ astream ((x :: l) ++ [z]) ++ post = pre ++ [] ++ aframe x ++ aframe y ++ (astream r ++ post)).
    { cbn [app]. unfold astream. cbn [flat_map app]. rewrite Y. cbn [flat_map]. now rewrite <- !app_assoc. }
    rewrite E at 2. rewrite find_one; auto.
    + cbn [bind app]. change (a_bitrate (header_of_frame (fst x) (alength x))) with (code_rate x). cbn [map sumN fold_right] in SU. rewrite lenN_cons in C. fold (sumN (map code_rate l)) in SU.
      change U32_MAX with 4294967295. change (2 ^ 32) with 4294967296 in *.
      replace (4294967295 <? sum + code_rate x) with false by (symmetry; apply N.ltb_ge; lia). replace (4294967295 <? count + 1) with false by (symmetry; apply N.ltb_ge; lia). cbn [orb].
      replace (pre ++ astream (x :: l ++ [z]) ++ post) with ((pre ++ aframe x) ++ astream (l ++ [z]) ++ post) by (unfold astream; cbn [flat_map]; now rewrite <- !app_assoc).
      rewrite (IH f) by (auto; cbn [length] in R; lia). cbn [map sumN fold_right]. rewrite lenN_cons. fold (sumN (map code_rate l)). f_equal. f_equal; lia.
    + apply silent_nil.
    + unfold akind in *. congruence.
    + apply Forall_app. split; auto. now apply (stream_bytes_ok r f).
Qed.
